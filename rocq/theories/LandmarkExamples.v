(** Nystrom features of two points: examples. *)
From mathcomp Require Import all_ssreflect all_algebra.
From Verif Require Import NystromM MatrixSpec NystromMProofs NystromOosProofs LandmarkSpec LandmarkProofs.
Set Implicit Arguments. Unset Strict Implicit. Unset Printing Implicit Defensive.
Import GRing.Theory Num.Theory Order.POrderTheory Order.TotalTheory.
Local Open Scope ring_scope.

Section Two.
  Variable R : rcfType.

  (** Two orthogonal points, of squared norms 1 and 4. *)
  Definition two_kernel (a b : bool) : R := if a == b then (if a then 4%:R else 1) else 0.
  Definition first_only (i : 'I_1) : bool := false.
  Definition two_points (i : 'I_2) : bool := i == 1.
  Definition two_values : 'rV[R]_2 := \row_j (if j == 1 then 4%:R else 1).

  Lemma two_positive : positive_kernel two_kernel.
  Proof.
    split; first by move=> [] [].
    move=> n x c.
    pose B : 'M[R]_(n, 2) := \matrix_(i, j) (if x i then (if j == 1 then 2%:R else 0) else (if j == 1 then 0 else 1)).
    have -> : gram two_kernel x x = B *m B^T.
      apply/matrixP => i j. rewrite !mxE !big_ord_recl big_ord0 !mxE /two_kernel /=.
      case: (x i) (x j) => [] [] /=; by rewrite ?mul0r ?mulr0 ?mul1r ?mulr1 ?addr0 ?add0r // -natrM.
    have -> : qform (B *m B^T) c = \sum_j (B^T *m c) j 0 ^+ 2.
      have -> : qform (B *m B^T) c = ((B^T *m c)^T *m (B^T *m c)) 0 0 by rewrite /qform trmx_mul trmxK !mulmxA.
      rewrite [LHS]mxE. apply: eq_bigr => j _. by rewrite [X in X * _]mxE expr2.
    by apply: sumr_ge0 => j _; exact: sqr_ge0.
  Qed.

  Lemma first_among : among first_only two_points.
  Proof. move=> i. by exists 0. Qed.
  Lemma first_decomposition : eigendecomposition (gram two_kernel first_only first_only) (const_mx 1) 1%:M.
  Proof.
    split; first by rewrite trmx1 mulmx1. split; last by move=> i j _; rewrite !mxE.
    rewrite mulmx1 mul1mx. apply/matrixP => i j. by rewrite !mxE !ord1.
  Qed.
  Lemma two_decomposition : eigendecomposition (gram two_kernel two_points two_points) two_values 1%:M.
  Proof.
    split; first by rewrite trmx1 mulmx1. split.
      rewrite mulmx1 mul1mx. apply/matrixP => i j. rewrite !mxE /two_kernel /two_points.
      by case: i j => [[|[|//]] i] [[|[|//]] j]; rewrite /= ?mulr1n ?mulr0n.
    move=> [[|[|//]] i] [[|[|//]] j] //= _; rewrite !mxE //=. by rewrite (ler_nat _ 1 4).
  Qed.

  Lemma half_pos : 0 < 1 / 2%:R :> R.
  Proof. by rewrite divr_gt0 ?ltr01 ?ltr0n. Qed.
  Lemma half_lt : (1 / 2%:R < 1 :> R).
  Proof. by rewrite ltr_pdivr_mulr ?ltr0n // mul1r (ltr_nat _ 1 2). Qed.
  Lemma two_all j : ~~ left_out two_values (1 / 2%:R) 2 j.
  Proof.
    rewrite /left_out negb_or /= -leNgt mxE. case: ifP => _; last exact: ltW half_lt.
    apply: le_trans (ltW half_lt) _. by rewrite (ler_nat _ 1 4).
  Qed.
  Lemma two_top (j : 'I_2) : left_out two_values (1 / 2%:R) 1 j = (j == 0).
  Proof.
    rewrite /left_out mxE /=. case: j => [[|[|//]] i] //=. apply/negbTE. rewrite -leNgt.
    apply: le_trans (ltW half_lt) _. by rewrite (ler_nat _ 1 4).
  Qed.

  Definition features_first (b : bool) :=
    nystrom_oos (1 / 2%:R) (leqnn 1) (const_mx 1) 1%:M (gram two_kernel (fun _ : 'I_1 => b) first_only).
  Definition features_two k (Hk : (k <= 2)%N) (b : bool) :=
    nystrom_oos (1 / 2%:R) Hk two_values 1%:M (gram two_kernel (fun _ : 'I_1 => b) two_points).

  Lemma entry_form (A : 'M[R]_1) : A 0 0 = qform A 1%:M.
  Proof. by rewrite /qform trmx1 mul1mx mulmx1. Qed.
  Lemma value_first b : (features_first b *m (features_first b)^T) 0 0 = if b then 0 else 1.
  Proof.
    rewrite entry_form /features_first oos_form ?half_pos //.
    rewrite big_mkcond /= big_ord_recl big_ord0 addr0 trmx1 mul1mx mulmx1 /left_out !mxE /= ltNge (ltW half_lt) /=.
    rewrite /two_kernel. by case: b => /=; rewrite ?expr0n ?mul0r ?expr1n ?divr1.
  Qed.
  Lemma value_two b : (features_two (leqnn 2) b *m (features_two (leqnn 2) b)^T) 0 0 = two_kernel b b.
  Proof.
    rewrite entry_form /features_two oos_form ?half_pos //.
    rewrite big_mkcond /= !big_ord_recl big_ord0 addr0 !two_all trmx1 mul1mx mulmx1 !mxE /two_kernel /two_points /=.
    case: b => /=; rewrite ?expr0n ?mul0r ?expr1n ?divr1 ?addr0 ?add0r //.
    by rewrite expr2 mulfK // pnatr_eq0.
  Qed.
  Lemma value_top b : (features_two (leqnSn 1) b *m (features_two (leqnSn 1) b)^T) 0 0 = if b then 4%:R else 0.
  Proof.
    rewrite entry_form /features_two oos_form ?half_pos //.
    rewrite big_mkcond /= !big_ord_recl big_ord0 addr0 !two_top trmx1 mul1mx mulmx1 !mxE /two_kernel /two_points /=.
    case: b => /=; rewrite ?expr0n ?mul0r ?expr1n ?divr1 ?addr0 ?add0r //.
    by rewrite expr2 mulfK // pnatr_eq0.
  Qed.
End Two.
