(** Principal components of a Nystrom kernel: an example with a component that the Nystrom kernel
    does not carry. *)
From mathcomp Require Import all_ssreflect all_fingroup all_algebra.
From Verif Require Import NystromM MatrixSpec NystromMProofs KpcaM KpcaSpec KpcaMProofs SolverSpec SolverProofs SolverExamples NystromKpcaSpec NystromKpcaProofs.
Set Implicit Arguments. Unset Strict Implicit. Unset Printing Implicit Defensive.
Import GRing.Theory Num.Theory Order.POrderTheory Order.TotalTheory.
Local Open Scope ring_scope.

Section Example.
  Variable R : rcfType.
  Definition half : R := 1 / 2%:R.
  Lemma half_gt0 : 0 < half. Proof. by rewrite divr_gt0 ?ltr01 ?ltr0n. Qed.
  Lemma half_lt1 : half < 1. Proof. exact: half_below. Qed.
  Lemma half_lt2 : half < 2%:R. Proof. by rewrite (lt_trans half_lt1) // (ltr_nat _ 1 2). Qed.
  (** One component of the eigenvalues 1 and 2. *)
  Definition one_of_two : 'M[R]_(2, _) := nystrom_sample half (leqnSn 1) (ladder R) 1%:M.
  Lemma one_decomposition : eigendecomposition (one_of_two *m one_of_two^T) (cut half 1 (ladder R)) 1%:M.
  Proof. exact (cut_decomposition (ladder_decomposition R) (leqnSn 1) half_gt0). Qed.
  Lemma one_min : (minn 2 1 <= 2)%N. Proof. by []. Qed.
  Lemma one_separated : separated (Num.max half half) (minn 2 1) (ladder R).
  Proof. rewrite maxxx. exact: ladder_separated. Qed.
  Lemma one_variance : model_variance (dual_vals half (leqnn 2) (cut half 1 (ladder R))) = 1.
  Proof.
    rewrite (compare_variance (ladder_decomposition R) half_gt0 one_decomposition _ one_min half_gt0) maxxx.
    rewrite /model_variance (eq_bigr (fun i => 2%:R^-1 * primal_vals half one_min (ladder R) 0 i)); last by move=> i _; rewrite !mxE.
    rewrite -big_distrr /=.
    have -> : \sum_i primal_vals half one_min (ladder R) 0 i = \sum_(j | ~~ left_out (ladder R) half 1 j) ladder R 0 j.
      rewrite -(nystrom_reindex (ladder R) half one_min (fun j => ladder R 0 j)). by apply: eq_bigr => i _; rewrite !mxE.
    rewrite big_mkcond /= !big_ord_recl big_ord0 /left_out !mxE /= ltNge (ltW half_lt2) /= add0r addr0.
    by rewrite mulVf // pnatr_eq0.
  Qed.
  Lemma two_variance : model_variance (dual_vals half (leqnn 2) (ladder R)) = 3%:R / 2%:R.
  Proof.
    rewrite /model_variance (eq_bigr (fun i => 2%:R^-1 * primal_vals half (leqnn 2) (ladder R) 0 i)); last by move=> i _; rewrite !mxE.
    rewrite -big_distrr /=.
    have -> : \sum_i primal_vals half (leqnn 2) (ladder R) 0 i = \sum_(j | ~~ left_out (ladder R) half 2 j) ladder R 0 j.
      rewrite -(nystrom_reindex (ladder R) half (leqnn 2) (fun j => ladder R 0 j)). by apply: eq_bigr => i _; rewrite !mxE.
    rewrite big_mkcond /= !big_ord_recl big_ord0 /left_out !mxE /= !ltNge (ltW half_lt2) (ltW half_lt1) /= addr0.
    by rewrite -(natrD _ 1 2) mulrC.
  Qed.
End Example.
