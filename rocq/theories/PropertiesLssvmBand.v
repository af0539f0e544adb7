(** C224: least-squares support vector machines with very small and very large bandwidths. *)
From mathcomp Require Import all_ssreflect all_algebra.
From Verif Require Import MatrixSpec LssvmM LssvmMProofs LimitSpec LssvmBandProofs.
Set Implicit Arguments. Unset Strict Implicit. Unset Printing Implicit Defensive.
Import GRing.Theory Num.Theory Order.POrderTheory Order.TotalTheory.
Local Open Scope ring_scope.

(** A kernel matrix within [e] of [p] times the identity, as every kernel of a distance has for a small
    bandwidth (C222): the dual variables are about the deviations from the mean over [p + gamma]. *)
Theorem C224_small_solution :
  forall (R : rcfType) n q (K : 'M[R]_n) (gamma e p : R) (Y h : 'M[R]_(n, q)) b,
    psd K -> (0 < n)%N -> 0 < gamma -> 0 <= p -> solve_dual K gamma Y = Some (h, b) ->
    (forall i j, `|K i j - (if i == j then p else 0)| <= e) ->
    forall j, \sum_a (h a j - (Y a j - mean Y j) / (p + gamma)) ^+ 2 <=
      (n%:R * e) ^+ 2 * (\sum_i (Y i j - mean Y j) ^+ 2) / gamma ^+ 4.
Proof. move=> R n q K gamma e p Y h b P N G p0 S. exact: (small_solution P N G p0 S). Qed.
Print Assumptions C224_small_solution.
(** A training point is predicted part of the way from the mean to its own target, whatever the others. *)
Theorem C224_small_fit :
  forall (R : rcfType) n q (K : 'M[R]_n) (gamma e p : R) (Y h : 'M[R]_(n, q)) b,
    psd K -> (0 < n)%N -> 0 < gamma -> 0 <= p -> solve_dual K gamma Y = Some (h, b) ->
    (forall i j, `|K i j - (if i == j then p else 0)| <= e) ->
    forall j, \sum_a (predict_dual 1 h b K a j - (mean Y j + p * ((Y a j - mean Y j) / (p + gamma)))) ^+ 2 <=
      (n%:R * e) ^+ 2 * (\sum_i (Y i j - mean Y j) ^+ 2) / gamma ^+ 2.
Proof. move=> R n q K gamma e p Y h b P N G p0 S. exact: (small_fit P N G p0 S). Qed.
Print Assumptions C224_small_fit.
(** A point away from the sample is predicted about the mean. *)
Theorem C224_small_predictions :
  forall (R : rcfType) n q (K : 'M[R]_n) (gamma e p : R) (Y h : 'M[R]_(n, q)) b,
    psd K -> (0 < n)%N -> 0 < gamma -> 0 <= p -> solve_dual K gamma Y = Some (h, b) ->
    forall m (k : 'M[R]_(m, n)) x,
    (forall i j, `|K i j - (if i == j then p else 0)| <= e) -> (forall a, `|k x a| <= e) ->
    forall j, (predict_dual 1 h b k x j - mean Y j) ^+ 2 <=
      2%:R * n%:R * e ^+ 2 * (\sum_i (Y i j - mean Y j) ^+ 2) / gamma ^+ 2 * ((p / gamma) ^+ 2 + 4%:R).
Proof. move=> R n q K gamma e p Y h b P N G p0 S m k x. exact: (small_predictions P N G p0 S). Qed.
Print Assumptions C224_small_predictions.

(** A kernel matrix within [e] of the constant [p], as for a large bandwidth: the dual variables are
    about the deviations from the mean over [gamma] ... *)
Theorem C224_large_solution :
  forall (R : rcfType) n q (K : 'M[R]_n) (gamma e p : R) (Y h : 'M[R]_(n, q)) b,
    psd K -> (0 < n)%N -> 0 < gamma -> 0 <= p -> solve_dual K gamma Y = Some (h, b) ->
    (forall i j, `|K i j - p| <= e) ->
    forall j, \sum_a (h a j - (Y a j - mean Y j) / gamma) ^+ 2 <=
      (n%:R * e) ^+ 2 * (\sum_i (Y i j - mean Y j) ^+ 2) / gamma ^+ 4.
Proof. move=> R n q K gamma e p Y h b P N G p0 S. exact: (large_solution P N G p0 S). Qed.
Print Assumptions C224_large_solution.
(** ... and every point, training points included, is predicted about the mean. *)
Theorem C224_large_predictions :
  forall (R : rcfType) n q (K : 'M[R]_n) (gamma e p : R) (Y h : 'M[R]_(n, q)) b,
    psd K -> (0 < n)%N -> 0 < gamma -> 0 <= p -> solve_dual K gamma Y = Some (h, b) ->
    forall m (k : 'M[R]_(m, n)) x,
    (forall i j, `|K i j - p| <= e) -> (forall a, `|k x a - p| <= e) ->
    forall j, (predict_dual 1 h b k x j - mean Y j) ^+ 2 <=
      8%:R * n%:R * e ^+ 2 * (\sum_i (Y i j - mean Y j) ^+ 2) / gamma ^+ 2.
Proof. move=> R n q K gamma e p Y h b P N G p0 S m k x. exact: (large_predictions P N G p0 S). Qed.
Print Assumptions C224_large_predictions.

(** The identity plus one half everywhere. *)
Example C224_nontrivial : forall R : rcfType,
  psd (nearly R) /\ (forall i j, `|nearly R i j - (if i == j then 1 else 0)| <= 2%:R^-1) /\
  forall Y : 'cV[R]_2, exists h b, solve_dual (nearly R) 1 Y = Some (h, b).
Proof.
  move=> R. split; first exact: nearly_psd. split; first exact: nearly_entries.
  move=> Y. have [h [b [E _]]] := solve_dual_kkt (@nearly_psd R) (@ltr01 R) (ltn0Sn 1) Y. by exists h, b.
Qed.
