(** Other coordinates for the same points: specification. *)
From Coq Require Import Permutation.
From Verif Require Import Base RVec.
Open Scope R_scope.

(** A change of orthonormal coordinates of dimension [d]: the columns of the matrix are
    orthonormal.  (The number of rows may be larger: the points then lie in a subspace.) *)
Definition orthonormal (d : nat) (q : mat) : Prop :=
  rect d q /\ forall j k, (j < d)%nat -> (k < d)%nat ->
    dot (column j q) (column k q) = if Nat.eq_dec j k then 1 else 0.
Definition rotate (q : mat) (x : vec) : vec := map (fun r => dot r x) q.

(** The coordinates in another order, some of them counted in the other direction. *)
Definition reordering (d : nat) (p : list nat) (sign : nat -> R) : Prop :=
  Permutation p (seq 0 d) /\ forall j, (j < d)%nat -> sign j = 1 \/ sign j = -1.
Definition relabel (p : list nat) (sign : nat -> R) (x : vec) : vec := map (fun j => sign j * nth j x 0) p.
