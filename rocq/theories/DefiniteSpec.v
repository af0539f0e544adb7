(** Vocabulary: kernel matrices that are positive definite. *)
From Verif Require Import Base RVec KernelR KernelRSpec.
Open Scope R_scope.

(** A matrix whose quadratic form is positive, except at zero. *)
Definition definite (k : mat) : Prop :=
  forall c : vec, length c = length k -> (exists a, In a c /\ a <> 0) -> 0 < quadratic k c.

(** The coefficients reproduce the targets: [k @ c = targets]. *)
Definition reproduces (k : mat) (c targets : vec) : Prop := length c = length k /\ map (dot c) k = targets.

(** The distance kernels concerned: Gaussian, Laplacian, exponential of the Manhattan
    distance, logistic. *)
Definition telling (k : kern) (d : distance) : Prop :=
  match k, d with
  | Exponential true, Euclidean | Exponential false, Euclidean | Exponential false, Manhattan | Logistic, Euclidean => True
  | _, _ => False
  end.
