(** Vocabulary for least-squares support vector machines. *)
From mathcomp Require Import all_ssreflect all_algebra.
From Verif Require Import KpcaSpec.
Set Implicit Arguments. Unset Strict Implicit. Unset Printing Implicit Defensive.
Import GRing.Theory Num.Theory.
Local Open Scope ring_scope.

Section Spec.
  Variable R : realFieldType.
  (** Every row of a matrix is [b]. *)
  Definition rows_all m q (b : 'rV[R]_q) : 'M[R]_(m, q) := \matrix_(i, j) b 0 j.
  (** The sums of the columns are zero. *)
  Definition sums_to_zero n q (h : 'M[R]_(n, q)) : Prop := forall j, \sum_i h i j = 0.
  (** Optimality conditions: stationarity and balance. *)
  Definition kkt n q (K : 'M[R]_n) (gamma : R) (Y h : 'M[R]_(n, q)) (b : 'rV[R]_q) : Prop :=
    Y - (K *m h + rows_all n b) = gamma *: h /\ sums_to_zero h.
  (** The regularised least-squares problem solved by the weights [w] and the bias [b]. *)
  Definition objective n d q (Phi : 'M[R]_(n, d)) (gamma : R) (Y : 'M[R]_(n, q)) (w : 'M[R]_(d, q)) (b : 'rV[R]_q) : R :=
    gamma * frobenius2 w + frobenius2 (Y - (Phi *m w + rows_all n b)).
  Definition centered_features n d (Phi : 'M[R]_(n, d)) : Prop := forall j, \sum_i Phi i j = 0.
End Spec.
