(** What a ridge regression is meant to minimise. *)
From mathcomp Require Import all_ssreflect all_algebra.
From Verif Require Import MatrixSpec KpcaSpec.
Set Implicit Arguments. Unset Strict Implicit. Unset Printing Implicit Defensive.
Import GRing.Theory Num.Theory.
Local Open Scope ring_scope.

(** The squared weights, times the strength [a] of the regularisation, and the squared errors of
    the weights [w] on the features [Phi] for the targets [Y]. *)
Definition ridge_objective (R : rcfType) n d q (Phi : 'M[R]_(n, d)) (Y : 'M[R]_(n, q)) (a : R) (w : 'M[R]_(d, q)) : R :=
  a * frobenius2 w + frobenius2 (Y - Phi *m w).
(** No output of a matrix of kernel values adds up to anything else than zero over the sample. *)
Definition columns_sum_to_zero (R : rcfType) n (K : 'M[R]_n) : Prop := forall j, \sum_i K i j = 0.
