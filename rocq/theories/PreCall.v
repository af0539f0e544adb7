(** Asking a kernel or a level for a pre-image: which method answers (kerch/kernel/kernel.py:347-390,
    _base_kernel.py:303-345 and the classes that define these methods again).  Definitions only.
    The values themselves are those of [Method.v], [Preimage.v] and [RandomFeaturesR.v]. *)
From Verif Require Import Base Factory Classes.
Open Scope string_scope.

(** How the method is called: the image not given, given first or given by the name it has in
    [Kernel] ([phi_image], [k_image]); [method=], when given; the names of the other keyword
    arguments. *)
Inductive given : Type := Absent | First | Named.
Record call : Type := Call { c_image : given; c_method : option string; c_extra : list string }.

(** What is answered: the result of [_explicit_preimage] of a class, of a function of
    [kerch.method], or an exception class that is returned and not raised. *)
Inductive answer : Type := OwnOf (c : string) | ByKnn | BySmoother | ByIterative | ClassReturned.

(** The classes with a definition of these methods: _base_kernel.py:303, kernel.py:347,
    implicit.py:44, polynomial.py:256, explicit.py:48, linear.py:47, nystrom.py:169,
    explicit_nn.py:108, random_features.py:186, rf_stacked.py:74. *)
Definition pre_defs (c : string) : list string :=
  match find (fun e => String.eqb c (fst e))
    [ ("_BaseKernel", ["implicit_preimage"]); ("Kernel", ["explicit_preimage"]); ("Implicit", ["explicit_preimage"]);
      ("Polynomial", ["explicit_preimage"]); ("Explicit", ["_explicit_preimage"]); ("Linear", ["_explicit_preimage"]);
      ("Nystrom", ["_explicit_preimage"]); ("ExplicitNN", ["_explicit_preimage"]); ("RandomFeatures", ["_explicit_preimage"]);
      ("RFStacked", ["_explicit_preimage"]) ] with Some e => snd e | None => [] end.

(** The keyword arguments of the functions of [kerch.method] that a caller can still give
    (_knn.py:8, _smoother.py:12-13, _iterative.py:64-65 and 127-128). *)
Definition knn_names : list string := ["num"].
Definition iterative_names : list string := ["num_iter"; "lr"; "light_cache"; "verbose"].
Definition keywords (accepted extra : list string) (a : answer) : result answer :=
  if forallb (fun x => smem x accepted) extra then Ok a else Err ETypeError.

(** [implicit_preimage] of [_BaseKernel] (_base_kernel.py:303-345); the default is knn. *)
Definition implicit_answer (m : string) (extra : list string) : result answer :=
  if String.eqb (lower m) "knn" then keywords knn_names extra ByKnn
  else if String.eqb (lower m) "smoother" then keywords knn_names extra BySmoother
  else if String.eqb (lower m) "iterative" then keywords iterative_names extra ByIterative
  else Err EAttributeError.
(** [_explicit_preimage] as found from the class of the object.  [Explicit] raises (explicit.py:49),
    [Nystrom] too (nystrom.py:170); [ExplicitNN] first loads a module by a relative name without
    package (explicit_nn.py:109), an [ImportError] ([EOther 3], as in [Lazy.v]).  [RFStacked] asks its kernels
    ([Stack.v]).  Any other class is of a user. *)
Definition own_answer (defs : string -> list string) (c : cls) : result answer :=
  match resolve defs c "_explicit_preimage" with
  | None => Err EAttributeError
  | Some d => if String.eqb d "Explicit" then Err ENotImplemented
              else if String.eqb d "Nystrom" then Err EExplicit
              else if String.eqb d "ExplicitNN" then Err (EOther 3)
              else Ok (OwnOf d)
  end.
(** [explicit_preimage] of [Kernel] (kernel.py:347-390); with [explicit] the other keywords are not
    looked at.  The transforms that are undone around it are in [Transform.v]. *)
Definition explicit_answer (defs : string -> list string) (c : cls) (m : string) (extra : list string) : result answer :=
  if String.eqb (lower m) "explicit" then own_answer defs c
  else if String.eqb (lower m) "knn" then keywords knn_names extra ByKnn
  else if String.eqb (lower m) "smoother" then keywords knn_names extra BySmoother
  else if String.eqb (lower m) "iterative" then keywords iterative_names extra ByIterative
  else Err EAttributeError.

(** [obj.implicit_preimage(...)] and [obj.explicit_preimage(...)] for an object whose class has the
    order [c].  [Implicit] gives its error a keyword argument that does not exist
    (implicit.py:52); [Polynomial] has one parameter, named [phi], and returns a class
    (polynomial.py:256-257).  The definition of a user is not described: [None]. *)
Definition implicit_preimage (defs : string -> list string) (c : cls) (k : call) : option (result answer) :=
  match resolve defs c "implicit_preimage" with
  | None => Some (Err EAttributeError)
  | Some d => if String.eqb d "_BaseKernel"
              then Some (implicit_answer (match c_method k with Some m => m | None => "knn" end) (c_extra k)) else None
  end.
Definition explicit_preimage (defs : string -> list string) (c : cls) (k : call) : option (result answer) :=
  match resolve defs c "explicit_preimage" with
  | None => Some (Err EAttributeError)
  | Some d =>
      if String.eqb d "Kernel"
      then Some (explicit_answer defs c (match c_method k with Some m => m | None => "explicit" end) (c_extra k))
      else if String.eqb d "Implicit" then Some (Err ETypeError)
      else if String.eqb d "Polynomial"
      then Some (match c_image k, c_method k, c_extra k with First, None, [] => Ok ClassReturned | _, _, _ => Err ETypeError end)
      else None
  end.
