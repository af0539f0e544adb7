(** Two points on a line. *)
From mathcomp Require Import all_ssreflect all_algebra.
From Verif Require Import NystromM MatrixSpec NystromMProofs KpcaM KpcaSpec LssvmM LssvmSpec LssvmMProofs LssvmLossProofs CenterM OriginSpec OriginProofs ScoresSpec ScoresProofs.
Set Implicit Arguments. Unset Strict Implicit. Unset Printing Implicit Defensive.
Import Order.POrderTheory Order.TotalTheory GRing.Theory Num.Theory.
Local Open Scope ring_scope.

Section Two.
  Variable R : rcfType.
  (** The points 0 and 2. *)
  Definition two_points : 'M[R]_(2, 1) := \matrix_(i, j) (2%:R * (i : nat)%:R).
  Definition opposite : 'M[R]_(2, 1) := \matrix_(i, j) (-1) ^+ (i : nat).+1.
  Lemma two_centered : center_features two_points two_points = opposite.
  Proof.
    apply/matrixP => i j. rewrite !mxE !big_ord_recl big_ord0 !mxE /= mulr0 add0r addr0 mulr1 mulVf ?pnatr_eq0 //.
    case: i => [[|[|i]] Hi] //=; rewrite ?mulr0 ?mulr1 ?sub0r ?expr1 //. by rewrite expr2 mulrNN mulr1 (natrD R 1 1) addrK.
  Qed.
  Lemma two_moment : eigendecomposition (second_moment opposite) (const_mx 1) 1%:M.
  Proof.
    have -> : second_moment opposite = 1%:M.
    { apply/matrixP => i j. rewrite !mxE !big_ord_recl big_ord0 !mxE !ord1 /= !expr1 !expr2 !mulrNN !mulr1 addr0.
      by rewrite -(natrD R 1 1) mulVf // pnatr_eq0. }
    split; first by rewrite trmx1 mulmx1. split; first by rewrite mulmx1 mul1mx diag_const_mx. move=> i j _. by rewrite !mxE.
  Qed.
  (** Minus half the squared distances: zero and -2. *)
  Lemma two_conditional : conditionally_psd (half_distances two_points two_points) /\ ~ psd (half_distances two_points two_points).
  Proof.
    split; first exact: half_distances_conditional.
    move=> /(_ (ones R 2)). rewrite /qform mxE !big_ord_recl big_ord0 ![(_^T *m _) _ _]mxE !big_ord_recl !big_ord0 !mxE !big_ord_recl !big_ord0 !mxE.
    rewrite /= !(mulr0, mulr1, mul1r, subr0, sub0r, addr0, add0r, subrr, expr0n, oppr0) /=.
    rewrite sqrrN expr2 mulrA mulVf ?pnatr_eq0 // mul1r. rewrite -opprD oppr_ge0 -natrD lern0. by [].
  Qed.
  (** The centered kernel matrix of the two points, its eigenvalues and its eigenvectors. *)
  Definition two_values : 'rV[R]_2 := \row_j (2%:R * (j : nat)%:R).
  Definition two_vectors : 'M[R]_2 := \matrix_(i, j) ((Num.sqrt 2%:R)^-1 * (-1) ^+ ((i : nat) * j)%N).
  Lemma root_square : (Num.sqrt 2%:R)^-1 * (Num.sqrt 2%:R)^-1 = 2%:R^-1 :> R.
  Proof. by rewrite -invfM -expr2 sqr_sqrtr // ler0n. Qed.
  Lemma half_half : 2%:R^-1 + 2%:R^-1 = 1 :> R.
  Proof. by rewrite -[RHS](half_double 1) mulr1. Qed.
  Lemma two_decomposition : eigendecomposition (center_sample (two_points *m two_points^T)) two_values two_vectors.
  Proof.
    rewrite (center_explicit _ (ltn0Sn 1)) two_centered. split; last split.
    - apply/matrixP => i j. rewrite !mxE !big_ord_recl big_ord0 !mxE.
      case: i => [[|[|i]] Hi] //; case: j => [[|[|j]] Hj] //=; rewrite ?(expr0, expr1, mulr1, mulrN, mulNr, opprK, addr0, root_square, subrr, half_half) //.
    - apply/matrixP => i j. rewrite mul_diag_entry !mxE !big_ord_recl big_ord0 !mxE !big_ord_recl !big_ord0 !mxE.
      case: i => [[|[|i]] Hi] //; case: j => [[|[|j]] Hj] //=; rewrite ?(expr0, expr1, expr2, mulr1, mul1r, mulr0, mulrN, mulNr, opprK, addr0, subrr, addNr) //.
      + by rewrite mulr_natr mulr2n.
      + by rewrite mulr_natr mulr2n opprD.
    - move=> i j ij. rewrite !mxE. apply: ler_wpmul2l; first exact: ler0n. by rewrite ler_nat.
  Qed.
  (** With the threshold 1, one component is kept. *)
  Lemma two_kept : nystrom_dim 1 (eigs_values (ltnSn 1 : (1 <= 2)%N) two_values) = 1%N.
  Proof.
    rewrite /nystrom_dim /kept (eq_filter (a2 := predT)) ?filter_predT ?size_enum_ord // => i.
    rewrite ord1 !mxE /= -leNgt mulr1. by rewrite ler1n.
  Qed.
End Two.
