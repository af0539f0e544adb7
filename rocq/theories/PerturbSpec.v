(** Vocabulary for nearby kernels. *)
From mathcomp Require Import all_ssreflect all_algebra.
Set Implicit Arguments. Unset Strict Implicit. Unset Printing Implicit Defensive.
Import GRing.Theory Num.Theory.
Local Open Scope ring_scope.

Section Spec.
  Variable R : realFieldType.
  (** As operators, two matrices are at a distance of at most [beta]. *)
  Definition within n (beta : R) (K K' : 'M[R]_n) : Prop :=
    forall u : 'cV[R]_n, \sum_i ((K - K') *m u) i 0 ^+ 2 <= beta ^+ 2 * (\sum_i u i 0 ^+ 2).
End Spec.
