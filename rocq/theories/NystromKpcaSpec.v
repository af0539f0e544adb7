(** Vocabulary for the principal components of a Nystrom kernel. *)
From mathcomp Require Import all_ssreflect all_algebra.
Set Implicit Arguments. Unset Strict Implicit. Unset Printing Implicit Defensive.
Import GRing.Theory Num.Theory.
Local Open Scope ring_scope.

Section Spec.
  Variables (R : realFieldType) (n : nat).
  (** The eigenvalues, in ascending order, where those that are not among the [p] largest, or fall
      under the threshold, are replaced by zero. *)
  Definition cut (eps : R) (p : nat) (s : 'rV[R]_n) : 'rV[R]_n :=
    \row_j (if (j < n - p)%N || (s 0 j < eps) then 0 else s 0 j).
End Spec.
