(** Several decompositions of the same matrix: examples. *)
From mathcomp Require Import all_ssreflect all_fingroup all_algebra.
From Verif Require Import NystromM MatrixSpec NystromMProofs KpcaM KpcaSpec KpcaMProofs SolverSpec SolverProofs.
Set Implicit Arguments. Unset Strict Implicit. Unset Printing Implicit Defensive.
Import GRing.Theory Num.Theory Order.POrderTheory Order.TotalTheory.
Local Open Scope ring_scope.

Section Examples.
  Variable R : rcfType.

  (** Eigenvalues 1 and 2, with one vector of either sign. *)
  Definition ladder : 'rV[R]_2 := \row_j (if j == 0 then 1 else 2%:R).
  Definition flipped : 'M[R]_2 := diag_mx (\row_j (if j == 0 then 1 else -1)).
  Lemma ladder_decomposition : eigendecomposition (diag_mx ladder) ladder 1%:M.
  Proof.
    split; first by rewrite trmx1 mulmx1. split; first by rewrite mulmx1 mul1mx.
    move=> [[|[|//]] i] [[|[|//]] j] //= _; rewrite !mxE //=. by rewrite (ler_nat _ 1 2).
  Qed.
  Lemma flipped_decomposition : eigendecomposition (diag_mx ladder) ladder flipped.
  Proof.
    split; last (split; last by case: ladder_decomposition => _ []).
      apply/matrixP => i j. rewrite tr_diag_mx mul_diag_mx !mxE.
      by case: i j => [[|[|//]] i] [[|[|//]] j]; rewrite /= ?mulr1n ?mulr0n ?mulr0 ?mulr1 ?mulrNN ?mulr1.
    apply/matrixP => i j. rewrite mul_diag_mx mul_mx_diag !mxE. case: (eqVneq i j) => [->|_]; last by rewrite mulr0n mulr0 mul0r.
    by rewrite mulr1n mulrC.
  Qed.
  Lemma ladder_separated : separated (1 / 2%:R) 1 ladder.
  Proof.
    move=> [[|[|//]] i] [[|[|//]] j] //= _ _. left. rewrite !mxE /=. by rewrite (ltr_nat _ 1 2).
  Qed.

  (** Two equal eigenvalues, in either order. *)
  Definition swap : 'M[R]_2 := \matrix_(i, j) (i != j)%:R.
  Lemma level_decomposition : eigendecomposition (1%:M : 'M[R]_2) (const_mx 1) 1%:M.
  Proof.
    split; first by rewrite trmx1 mulmx1. split; last by move=> i j _; rewrite !mxE.
    rewrite !mul1mx. apply/matrixP => i j. by rewrite !mxE.
  Qed.
  Lemma swap_decomposition : eigendecomposition (1%:M : 'M[R]_2) (const_mx 1) swap.
  Proof.
    split; last (split; last by move=> i j _; rewrite !mxE).
      apply/matrixP => i j. rewrite !mxE !big_ord_recl big_ord0 !mxE.
      by case: i j => [[|[|//]] i] [[|[|//]] j]; rewrite /= ?mulr1 ?mulr0 ?addr0 ?add0r.
    rewrite mul1mx. apply/matrixP => i j. by rewrite mul_mx_diag !mxE mulr1.
  Qed.

  Definition score (V : 'M[R]_2) : 'M[R]_1 :=
    let h := h_primal (primal_param (1 / 2%:R) (leqnSn 1) (const_mx 1) V) (primal_vals (1 / 2%:R) (leqnSn 1) (const_mx 1)) (delta_mx 0 0 : 'rV[R]_2) in
    h *m h^T.
  Lemma half_below : (1 / 2%:R < 1 :> R).
  Proof. by rewrite ltr_pdivr_mulr ?ltr0n // mul1r (ltr_nat _ 1 2). Qed.
  Lemma score_value V : score V 0 0 = V 0 1 * V 0 1.
  Proof.
    rewrite /score h_primal_form gram_kept kept_fun trmx_delta -rowE -colE !mxE big_mkcond /= !big_ord_recl big_ord0 addr0.
    rewrite /left_out !mxE /= ltNge (ltW half_below) /= add0r invr1 sqrtr1 !mulr1.
    by rewrite (_ : lift 0 0 = 1 :> 'I_2) ?mul1r //; apply: val_inj.
  Qed.
  Lemma score_level : score 1%:M 0 0 = 0.
  Proof. by rewrite score_value !mxE /= mulr0. Qed.
  Lemma score_swap : score swap 0 0 = 1.
  Proof. by rewrite score_value !mxE /= mulr1. Qed.
End Examples.
