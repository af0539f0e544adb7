(** A training set that holds every point twice: examples. *)
From mathcomp Require Import all_ssreflect all_fingroup all_algebra.
From Verif Require Import NystromM MatrixSpec NystromMProofs KpcaM KpcaSpec SolverSpec SolverProofs LssvmM LssvmSpec LssvmMProofs StableSpec RepeatSpec RepeatProofs.
Set Implicit Arguments. Unset Strict Implicit. Unset Printing Implicit Defensive.
Import GRing.Theory Num.Theory Order.POrderTheory Order.TotalTheory.
Local Open Scope ring_scope.

Section Examples.
  Variable R : rcfType.

  (** Two points with targets 1 and -1, each of them twice, in the order 0, 1, 1, 0. *)
  Definition twice (a : 'I_4) : 'I_2 := if (0 < a < 3)%N then 1 else 0.
  Lemma twice_copies : copies 2 twice.
  Proof.
    move=> i. rewrite -sum1_card big_mkcond /= !big_ord_recl big_ord0.
    by case: i => [[|[|//]] i].
  Qed.
  Definition signs : 'cV[R]_2 := \col_i (if i == 0 then 1 else -1).
  Lemma one_psd n : psd (1%:M : 'M[R]_n).
  Proof.
    move=> x. rewrite /qform mulmx1 mxE. apply: sumr_ge0 => i _. rewrite mxE -expr2. exact: sqr_ge0.
  Qed.
  Lemma signs_solved : solve_dual (1%:M : 'M[R]_2) 1 signs = Some (2%:R^-1 *: signs, 0).
  Proof.
    have N2 : (0 < 2)%N by []. have G : (0 : R) < 1 by exact: ltr01. have U := @solve_dual_unique _ _ _ _ (@one_psd 2) G N2 _ signs (2%:R^-1 *: signs) 0. apply U. split.
      have H : (2%:R : R) != 0 by rewrite pnatr_eq0.
      have Z : rows_all 2 (0 : 'rV[R]_1) = 0 by apply/matrixP => i j; rewrite !mxE.
      rewrite mul1mx Z addr0 scale1r.
      have -> : signs - 2%:R^-1 *: signs = (1 - 2%:R^-1) *: signs by rewrite scalerBl scale1r.
      congr (_ *: _). apply: (mulfI H). by rewrite mulrBr mulr1 divff // -(natrB _ (isT : (1 <= 2)%N)).
    move=> j. rewrite !big_ord_recl big_ord0 !mxE /= addr0. by rewrite mulr1 mulrN mulr1 subrr.
  Qed.

  (** One point, twice. *)
  Definition same (a : 'I_2) : 'I_1 := 0.
  Lemma same_copies : copies 2 same.
  Proof. move=> i. rewrite -sum1_card big_mkcond /= !big_ord_recl big_ord0. by rewrite ord1. Qed.
  Definition root : R := Num.sqrt (2%:R^-1).
  Lemma root_sq : root * root = 2%:R^-1.
  Proof. by rewrite -expr2 sqr_sqrtr // invr_ge0 ler0n. Qed.
  Definition pair_values : 'rV[R]_2 := \row_i (if i == 0 then 0 else 2%:R).
  Definition pair_vectors : 'M[R]_2 := \matrix_(i, j) (if (i == 1) && (j == 0) then - root else root).
  Lemma half_half : (2%:R^-1 + 2%:R^-1 : R) = 1.
  Proof. by rewrite -mulr2n -[LHS]mulr_natr mulVf // pnatr_eq0. Qed.
  Lemma pair_decomposition : eigendecomposition (between same (1%:M : 'M[R]_1)) pair_values pair_vectors.
  Proof.
    split.
      apply/matrixP => i j. rewrite !mxE !big_ord_recl big_ord0 !mxE.
      by case: i j => [[|[|//]] i] [[|[|//]] j]; rewrite /= ?mulrN ?mulNr ?opprK addr0 ?root_sq ?half_half ?subrr ?addNr.
    split.
      apply/matrixP => i j. rewrite mul_mx_diag !mxE !big_ord_recl big_ord0 !mxE.
      case: i j => [[|[|//]] i] [[|[|//]] j]; rewrite /= !mul1r addr0 ?subrr ?mulr0 //; by rewrite -mulr2n mulr_natr.
    move=> [[|[|//]] i] [[|[|//]] j] //= _; rewrite !mxE //=. exact: ler0n.
  Qed.
  Lemma single_decomposition : eigendecomposition (1%:M : 'M[R]_1) (const_mx 1) 1%:M.
  Proof.
    split; first by rewrite trmx1 mulmx1. split; last by move=> i j _; rewrite !mxE.
    rewrite !mul1mx. by apply/matrixP => i j; rewrite !mxE !ord1.
  Qed.
  Lemma single_separated : separated (2%:R^-1 * 1) 1 (const_mx 1 : 'rV[R]_1).
  Proof. by move=> i j; rewrite subnn. Qed.
  Lemma single_dim : nystrom_dim (2%:R^-1 * 1 : R) (eigs_values (leqnn 1) (const_mx 1 : 'rV[R]_1)) = 1%N.
  Proof.
    apply/eqP. rewrite /nystrom_dim /kept size_filter. rewrite -[X in _ == X](size_enum_ord 1). rewrite -all_count.
    apply/allP => i _. by rewrite !mxE mulr1 -leNgt invf_le1 ?ltr0n // (ler_nat _ 1 2).
  Qed.
End Examples.
