(** Vocabulary for matrices. *)
From mathcomp Require Import all_ssreflect all_algebra.
Set Implicit Arguments. Unset Strict Implicit. Unset Printing Implicit Defensive.
Import GRing.Theory Num.Theory.
Local Open Scope ring_scope.

Section Spec.
  Variable R : realFieldType.

  (** What an eigendecomposition of a symmetric matrix returns: orthonormal columns, each
      an eigenvector for its eigenvalue, in ascending order. *)
  Definition eigendecomposition n (K : 'M[R]_n) (s : 'rV[R]_n) (V : 'M[R]_n) : Prop :=
    V^T *m V = 1%:M /\ K *m V = V *m diag_mx s /\ (forall i j : 'I_n, (i <= j)%N -> s 0 i <= s 0 j).

  (** The quadratic form of a matrix, and its positivity. *)
  Definition qform n (K : 'M[R]_n) (c : 'cV[R]_n) : R := (c^T *m K *m c) 0 0.
  Definition psd n (K : 'M[R]_n) : Prop := forall c, 0 <= qform K c.
End Spec.
