(** How the classes of kerch are put together: the order in which Python resolves attributes,
    and the classes that are made at run time ([View.__new__], kerch/level/single_view/View.py:39-47;
    [SelectDistance.__new__], kerch/kernel/distance/select_distance.py:14-41; [RBF.__new__] and
    [Laplacian.__new__], kerch/kernel/generic/rbf.py:43-51, laplacian.py:33-41).  Definitions only.

    A class is represented by its resolution order ([__mro__]), whose first element is the class
    itself.  Classes are named; the classes made at run time have the name of the first base in
    Python, and here names of their own. *)
From Verif Require Import Base.
Open Scope nat_scope.
Open Scope string_scope.
Open Scope list_scope.

Notation cls := (list string).

(** *** Python's resolution order (C3 linearisation; the class statement and [type(...)]) *)
Definition tail_of (l : cls) : cls := match l with [] => [] | _ :: t => t end.
Definition in_tails (x : string) (ls : list cls) : bool := existsb (fun l => smem x (tail_of l)) ls.
(** The first head that is in no tail. *)
Fixpoint candidate (all ls : list cls) : option string :=
  match ls with
  | [] => None
  | [] :: ls' => candidate all ls'
  | (x :: _) :: ls' => if in_tails x all then candidate all ls' else Some x
  end.
Definition drop_head (x : string) (l : cls) : cls :=
  match l with [] => [] | y :: t => if String.eqb y x then t else l end.
Definition nothing_left (ls : list cls) : bool := forallb (fun l => match l with [] => true | _ => false end) ls.
Fixpoint merge (fuel : nat) (ls : list cls) : option cls :=
  if nothing_left ls then Some []
  else match fuel with
       | O => None
       | S f => match candidate ls ls with
                | None => None
                | Some x => match merge f (map (drop_head x) ls) with Some r => Some (x :: r) | None => None end
                end
       end.
Definition heads (bases : list cls) : cls := flat_map (fun b => match b with [] => [] | x :: _ => [x] end) bases.
Definition size_of (ls : list cls) : nat := fold_right (fun l n => List.length l + n) 0 ls.
(** A class with the given bases; [TypeError] when there is no consistent order. *)
Definition derive (name : string) (bases : list cls) : result cls :=
  let ls := bases ++ [heads bases] in
  match merge (size_of ls) ls with
  | Some l => Ok (name :: l)
  | None => Err ETypeError
  end.

(** *** Attributes.  [defs c]: the attributes defined in the body of the class [c]. *)
Definition defines (defs : string -> list string) (a c : string) : bool := smem a (defs c).
(** [x.a] is the attribute of the first class that defines it. *)
Definition resolve (defs : string -> list string) (c : cls) (a : string) : option string := find (defines defs a) c.
(** [super(C, x).a]: the same after [C]. *)
Fixpoint after (c : string) (l : cls) : cls :=
  match l with [] => [] | x :: l' => if String.eqb x c then l' else after c l' end.
Definition resolve_super (defs : string -> list string) (k : cls) (from a : string) : option string :=
  resolve defs (after from k) a.
Definition is_subclass (c : cls) (d : string) : bool := smem d c.

(** *** The classes of kerch (the class statements; [Module] lists [object] as well). *)
Definition statements : list (string * list string) :=
  [ ("object", []); ("torch.nn.Module", ["object"]);
    ("Logger", ["object"]);                                         (* feature/logger.py:18 *)
    ("Module", ["Logger"; "torch.nn.Module"; "object"]);            (* feature/module.py:17-20 *)
    ("Cache", ["Module"]);                                          (* feature/cache.py:17-18 *)
    ("Stochastic", ["Cache"]);                                      (* feature/stochastic.py:21-22 *)
    ("Sample", ["Stochastic"]);                                     (* feature/sample.py:22-23 *)
    ("_BaseKernel", ["Sample"]); ("Kernel", ["_BaseKernel"]);       (* kernel/_base_kernel.py, kernel.py *)
    ("Implicit", ["Kernel"]); ("Explicit", ["Kernel"]); ("RandomFeatures", ["Kernel"]);
    ("_Distance", ["Implicit"]); ("SelectDistance", ["_Distance"]); (* kernel/distance *)
    ("Distance", ["_Distance"]); ("DistanceSquared", ["_Distance"]);
    ("Euclidean", ["DistanceSquared"]); ("Manhattan", ["Distance"]); ("Chebyshev", ["Distance"]);
    ("Minkowski", ["Distance"]); ("distance.Wasserstein", ["Distance"]);
    ("Exponential", ["SelectDistance"]); ("Uniform", ["SelectDistance"]); ("Triangular", ["SelectDistance"]);  (* kernel/statistics *)
    ("Epanechnikov", ["SelectDistance"]); ("Quartic", ["SelectDistance"]); ("Triweight", ["SelectDistance"]);
    ("Tricube", ["SelectDistance"]); ("Logistic", ["SelectDistance"]); ("Silverman", ["SelectDistance"]);
    ("RBF", ["Exponential"]); ("Laplacian", ["Exponential"]); ("Wasserstein", ["Exponential"]);                  (* kernel/generic *)
    ("Polynomial", ["Implicit"; "Explicit"]); ("Linear", ["Explicit"]); ("Cosine", ["Linear"]);
    ("Sigmoid", ["Implicit"]);
    ("Nystrom", ["Explicit"]); ("ExplicitNN", ["Explicit"]); ("ImplicitNN", ["Implicit"]);                       (* kernel/nystrom.py, network *)
    ("SkewedChi2", ["Implicit"]); ("AdditiveChi2", ["Implicit"]); ("Indicator", ["Implicit"]); ("Hat", ["Implicit"]); (* vision, time *)
    ("RFF", ["RandomFeatures"]); ("RFArcsinh", ["RandomFeatures"]); ("RFLReLU", ["RandomFeatures"]);             (* random_features *)
    ("RFHyperbola", ["RandomFeatures"]); ("RFStacked", ["Explicit"]);
    ("_View", ["Stochastic"]); ("_Level", ["_View"]); ("_KPCA", ["_Level"]); ("_PPCA", ["_Level"]);              (* level *)
    ("View", ["Kernel"; "_View"; "Sample"]); ("Level", ["_Level"; "View"]);                                       (* level/single_view *)
    ("KPCA", ["_KPCA"; "Level"]); ("PPCA", ["_PPCA"; "Level"]); ("WPCA", ["_PPCA"; "Level"]);
    ("LSSVM", ["Level"]); ("Ridge", ["LSSVM"]);
    ("MultiView", ["_View"]); ("MVLevel", ["_Level"; "MultiView"]); ("MVKPCA", ["_KPCA"; "MVLevel"]) ].          (* level/multi_view *)
Definition table := dict cls.
Fixpoint lookup_all (t : table) (ns : list string) : result (list cls) :=
  match ns with
  | [] => Ok []
  | n :: ns' => match dget t n with
                | None => Err ENameError
                | Some c => bind (lookup_all t ns') (fun cs => Ok (c :: cs))
                end
  end.
Fixpoint define (t : table) (ss : list (string * list string)) : result table :=
  match ss with
  | [] => Ok t
  | (n, bs) :: ss' => bind (lookup_all t bs) (fun cs => bind (derive n cs) (fun c => define (dset t n c) ss'))
  end.
Definition kerch : table := Eval vm_compute in match define [] statements with Ok t => t | Err _ => [] end.
Definition cls_of (n : string) : cls := match dget kerch n with Some c => c | None => [] end.

(** *** Classes made at run time *)
(** [View.__new__] (42-46): [kernel] is the class found by the name or given. *)
Definition new_view (fresh : string) (level kernel : cls) : result cls :=
  if is_subclass kernel "Kernel" then derive fresh [level; kernel] else Err EAssertionError.
(** [SelectDistance.__new__] (15-40): a name in lower case, or a class. *)
Inductive distance : Type := DName (s : string) | DClass (c : cls).
Definition distance_class (d : distance) : result cls :=
  match d with
  | DName s => if String.eqb s "euclidean" then Ok (cls_of "Euclidean")
               else if String.eqb s "chebyshev" then Ok (cls_of "Chebyshev")
               else if String.eqb s "manhattan" then Ok (cls_of "Manhattan")
               else if String.eqb s "wasserstein" then Ok (cls_of "distance.Wasserstein")
               else if String.eqb s "minkowski" then Ok (cls_of "Minkowski")
               else Err EValueError
  | DClass c => if is_subclass c "_Distance" then Ok c else Err EValueError
  end.
Definition new_distance (fresh : string) (c : cls) (d : distance) : result cls :=
  bind (distance_class d) (fun dc => derive fresh [c; dc]).
(** Which [__new__] is found: those of [RBF] and [Laplacian] ignore the distance that is given
    and call that of [Exponential], which is that of [SelectDistance]; the others end in
    [Module.__new__] (feature/module.py:21-22), which makes the object of the class. *)
Definition kernel_new (fresh : string) (found_in c : cls) (d : option distance) : result cls :=
  if is_subclass found_in "SelectDistance"
  then let d' := if is_subclass found_in "RBF" || is_subclass found_in "Laplacian" then None else d in
       new_distance fresh c (match d' with Some d => d | None => DName "euclidean" end)
  else Ok c.
(** The class of [kernel(...)]. *)
Definition kernel_object (fresh : string) (kernel : cls) (d : option distance) : result cls := kernel_new fresh kernel kernel d.
(** The class of [level(kernel_type=..., distance=...)]. *)
Definition level_object (fresh1 fresh2 : string) (level kernel : cls) (d : option distance) : result cls :=
  bind (new_view fresh1 level kernel) (fun c => kernel_new fresh2 kernel c d).

(** *** Copies.  [copy.deepcopy] calls [cls.__new__(cls)] on the class of the object, without its
    arguments: a kernel gets the default distance, a level the default kernel
    ([DEFAULT_KERNEL_TYPE = 'rbf'], kerch/utils/defaults.py:2).  The attributes of the object are
    then copied. *)
Definition copy_kernel (fresh : string) (obj : cls) : result cls := kernel_new fresh obj obj None.
Definition copy_level (fresh1 fresh2 : string) (obj : cls) : result cls := level_object fresh1 fresh2 obj (cls_of "RBF") None.

(** *** Pickling.  [pickle] stores the class of an object by its module and name, and refuses when
    what it finds there is another class: only the classes of the class statements can be found. *)
Definition pickled (importable : list string) (obj : cls) : result string :=
  match obj with
  | c :: _ => if smem c importable then Ok c else Err (EOther 1)
  | [] => Err (EOther 1)
  end.
