(** Vocabulary for pre-images by a kernel. *)
From Verif Require Import Base RVec KernelR.
Open Scope R_scope.

(** [m] is the kernel matrix of the points [xs] against [ys]. *)
Definition kernel_values (k : kern) (d : distance) (sigma : R) (xs ys : mat) (m : mat) : Prop :=
  Forall2 (fun x row => Forall2 (fun y v => kvalue k d sigma x y = Ok (Fin v)) ys row) xs m.
