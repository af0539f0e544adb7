(** What it means for a class to be abstract, independently of how Python keeps track of it. *)
From Verif Require Import Base Classes ClassesSpec Abstract.
Open Scope nat_scope.
Open Scope string_scope.
Open Scope list_scope.

(** An attribute of a class is missing when the definition that is found is an abstract one. *)
Definition missing (defs abs : string -> list string) (c : cls) (n : string) : Prop :=
  exists d, resolve defs c n = Some d /\ In n (abs d).

(** The names that are abstract in some class of kerch. *)
Definition tracked : list string := Eval vm_compute in nodup string_dec (flat_map (fun x => snd (snd x)) bodies).

(** A program with the classes of kerch and others: the bodies of the classes of kerch are those
    of kerch, as far as the names that are abstract in kerch go. *)
Record program (defs abs : string -> list string) : Prop := Program {
  p_marked : forall c n, In n (abs c) -> In n (defs c);
  p_abs : forall c, In c (dkeys bodies) -> abs c = kabs c;
  p_defs : forall c n, In c (dkeys bodies) -> In n tracked -> smem n (defs c) = smem n (kdefs c) }.

(** The classes of kerch, and those that a user declares. *)
Inductive declared (defs abs : string -> list string) : klass -> Prop :=
| of_kerch : forall n k, dget kkerch n = Some k -> declared defs abs k
| of_user : forall n bases k, (forall b, In b bases -> declared defs abs b) -> (forall b, In b bases -> ~ In n (k_mro b)) ->
    class_statement defs abs n bases = Ok k -> declared defs abs k.
Definition declared_distance (defs abs : string -> list string) (d : option kdistance) : Prop :=
  match d with Some (KClass c) => declared defs abs c | _ => True end.

(** The distance, without the abstract methods. *)
Definition forget (d : kdistance) : distance := match d with KName s => DName s | KClass c => DClass (k_mro c) end.
Definition forget_option (d : option kdistance) : option distance := option_map forget d.

(** A single-view level class with the classes [lv] above [View] is complete when these classes
    implement what they declare, and what [_View] declares. *)
Definition complete (defs abs : string -> list string) (lv : list string) : Prop :=
  (forall n, ~ missing defs abs (lv ++ ["View"]) n) /\
  (forall n, In n (abs "_View") -> exists c, resolve defs (lv ++ ["View"]) n = Some c).

(** A class made at run time has the body of another. *)
Definition same_body (defs abs : string -> list string) (f c : string) : Prop := defs f = defs c /\ abs f = abs c.
(** The bodies when the classes made at run time are added. *)
Definition with_copies (fs : list (string * string)) (g : string -> list string) : string -> list string := fun c => g (copies_of fs c).

(** The kernels of kerch that are meant to be used, and the classes that they are derived from. *)
Definition plain_kernels : list string :=
  ["Linear"; "Cosine"; "Sigmoid"; "Polynomial"; "RFF"; "RFLReLU"; "RFArcsinh"; "RFHyperbola"; "RFStacked"; "ExplicitNN"; "ImplicitNN";
   "Indicator"; "Hat"; "AdditiveChi2"; "SkewedChi2"; "Nystrom"].
Definition distance_kernels : list string :=
  ["RBF"; "Laplacian"; "Epanechnikov"; "Uniform"; "Triangular"; "Quartic"; "Triweight"; "Tricube"; "Logistic"; "Silverman"; "Exponential"].
Definition base_kernels : list string :=
  ["_BaseKernel"; "Kernel"; "Implicit"; "Explicit"; "Distance"; "DistanceSquared"; "SelectDistance"; "RandomFeatures"].
Definition distance_choices : list (option kdistance) :=
  None :: map (fun s => Some (KName s)) ["euclidean"; "chebyshev"; "manhattan"; "wasserstein"; "minkowski"].
(** [kernel(...)] and [level(kernel_type=...)] for the classes of kerch. *)
Definition kerch_kernel (n : string) (d : option kdistance) : result cls :=
  create_kernel (with_copies [("f3", n)] kdefs) (with_copies [("f3", n)] kabs) "f3" (kclass_of n) d.
Definition kerch_level (l n : string) (d : option kdistance) : result cls :=
  create_level (with_copies [("f1", l); ("f2", l)] kdefs) (with_copies [("f1", l); ("f2", l)] kabs) "f1" "f2" (kclass_of l) (kclass_of n) d.
(** What the level classes leave to implement; the representations come from the kernel. *)
Definition representations : list string := ["explicit"; "_implicit"; "_explicit"].
Definition left_to_do : list (string * list string) :=
  [ ("View", representations ++ ["H"; "W"]);
    ("Level", representations ++ ["H"; "W"; "_solve_primal"; "_solve_dual"; "loss"]);
    ("KPCA", representations); ("LSSVM", representations); ("Ridge", representations);
    ("PPCA", representations ++ ["H"; "W"]);
    ("WPCA", representations ++ ["H"; "W"; "_solve_primal"; "_solve_dual"]);
    ("MultiView", ["H"; "W"]); ("MVLevel", ["H"; "W"; "_solve_primal"; "_solve_dual"]); ("MVKPCA", []) ].
