(** What it means for a level and its kernel to have hyperparameters of their own. *)
From Coq Require Import QArith.
From Verif Require Import Base Classes ClassesSpec Abstract AbstractSpec Shared.
Open Scope nat_scope.
Open Scope string_scope.
Open Scope list_scope.

(** Two objects: the names of the level in one dictionary, those of the kernel in another. *)
Definition own {A} (o : dict A * dict A) (s : side) : dict A := match s with Level_ => fst o | Kernel_ => snd o end.
Definition answer_apart {A} (o : dict A * dict A) (x : access A) : option A :=
  match x with Assign _ _ v => Some v | Read s n => dget (own o s) n end.
Definition after_apart {A} (o : dict A * dict A) (x : access A) : dict A * dict A :=
  match x with
  | Assign Level_ n v => (dset (fst o) n v, snd o)
  | Assign Kernel_ n v => (fst o, dset (snd o) n v)
  | Read _ _ => o
  end.
Fixpoint on_two_objects {A} (o : dict A * dict A) (xs : list (access A)) : list (option A) :=
  match xs with [] => [] | x :: xs' => answer_apart o x :: on_two_objects (after_apart o x) xs' end.

(** The level uses its names, the kernel its own. *)
Definition uses {A} (ln kn : list string) (x : access A) : Prop :=
  match x with
  | Assign Level_ n _ | Read Level_ n => In n ln
  | Assign Kernel_ n _ | Read Kernel_ n => In n kn
  end.
Definition shared (ln kn : list string) (n : string) : Prop := In n ln /\ In n kn.

Definition single_levels : list string := ["View"; "Level"; "KPCA"; "LSSVM"; "Ridge"; "PPCA"; "WPCA"].
Definition least_squares : list string := ["LSSVM"; "Ridge"].
Definition with_bandwidth : list string := ["RFF"; "RFLReLU"; "RFArcsinh"; "RFHyperbola"] ++ distance_kernels.

(** The class of the object that [level(kernel_type=...)] and [kernel(...)] make. *)
Definition object_class (l k : string) : cls := match kerch_level l k None with Ok c => c | Err _ => [] end.
Definition kernel_class (k : string) : cls := match kerch_kernel k None with Ok c => c | Err _ => [] end.

Open Scope Q_scope.
(** The quadratic form of the kernel matrix of the points [0], [p] and [2 p]. *)
Definition three_points (e : Q -> Q -> Q) (p a b c : Q) : Q :=
  let q := 2 * p in
  a * a * e 0 0 + b * b * e p p + c * c * e q q + a * b * (e 0 p + e p 0) + b * c * (e p q + e q p) + a * c * (e 0 q + e q 0).
