(** Vocabulary for strong and weak regularisation. *)
From mathcomp Require Import all_ssreflect all_algebra.
From Verif Require Import MatrixSpec.
Set Implicit Arguments. Unset Strict Implicit. Unset Printing Implicit Defensive.
Import GRing.Theory Num.Theory.
Local Open Scope ring_scope.

Section Spec.
  Variable R : realFieldType.
  (** The quadratic form of [K] is at least [lam] times the sum of squares: all eigenvalues are at
      least [lam]. *)
  Definition at_least n (lam : R) (K : 'M[R]_n) : Prop := forall c : 'cV[R]_n, lam * (\sum_i c i 0 ^+ 2) <= qform K c.
  (** The mean of a column. *)
  Definition mean n q (Y : 'M[R]_(n, q)) (j : 'I_q) : R := n%:R^-1 * \sum_i Y i j.
End Spec.
