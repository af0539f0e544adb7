(** Vocabulary for principal components. *)
From mathcomp Require Import all_ssreflect all_algebra.
Set Implicit Arguments. Unset Strict Implicit. Unset Printing Implicit Defensive.
Import GRing.Theory Num.Theory.
Local Open Scope ring_scope.

Section Spec.
  Variable R : realFieldType.
  (** Orthonormal columns. *)
  Definition orthonormal n q (U : 'M[R]_(n, q)) : Prop := U^T *m U = 1%:M.
  (** Sum of the squares of the entries. *)
  Definition frobenius2 m n (A : 'M[R]_(m, n)) : R := \sum_i \sum_j A i j ^+ 2.
  (** Orthogonal projection onto the columns of [U]. *)
  Definition projects_on n q (U : 'M[R]_(n, q)) (P : 'M[R]_n) : Prop :=
    P *m P = P /\ P^T = P /\ P *m U = U /\ forall x : 'cV[R]_n, exists c : 'cV[R]_q, P *m x = U *m c.
End Spec.
