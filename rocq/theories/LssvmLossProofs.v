(** Least-squares support vector machines: the loss, the scaling and witnesses. *)
From mathcomp Require Import all_ssreflect all_algebra.
From Verif Require Import MatrixSpec KpcaM KpcaSpec KpcaMProofs LssvmM LssvmSpec LssvmMProofs.
Set Implicit Arguments. Unset Strict Implicit. Unset Printing Implicit Defensive.
Import GRing.Theory Num.Theory Order.POrderTheory Order.TotalTheory.
Local Open Scope ring_scope.

Section Loss.
  Variable R : rcfType.
  Lemma predict_one n d q (Phi : 'M[R]_(n, d)) (w : 'M[R]_(d, q)) b : predict_primal 1 w b Phi = Phi *m w + rows_all n b.
  Proof. by rewrite /predict_primal sqrtr1 !scale1r rows_all_ones. Qed.
  Lemma mse_frobenius n q (A B : 'M[R]_(n, q)) : mse A B = (n * q)%:R^-1 * frobenius2 (B - A).
  Proof.
    rewrite /mse /frobenius2. congr (_ * _). apply: eq_bigr => i _. apply: eq_bigr => j _. by rewrite !mxE -sqrrN opprB.
  Qed.
  (** The loss is the objective for the regularisation [q / gamma]. *)
  Lemma loss_objective n d q (Phi : 'M[R]_(n, d)) gamma (Y : 'M[R]_(n, q)) w b : (0 < q)%N -> 0 < gamma ->
    lssvm_loss Phi gamma Y w b = gamma * (n * q)%:R^-1 * objective Phi (q%:R / gamma) Y w b.
  Proof.
    move=> Hq Hg. rewrite /lssvm_loss /objective mse_frobenius predict_one -/(frobenius2 w) mulrDr mulrA. congr (_ + _).
    rewrite natrM invfM mulrA.
    have Hq' : q%:R != 0 :> R by rewrite pnatr_eq0 -lt0n.
    have Hg' : gamma != 0 by rewrite gt_eqF.
    congr (_ * _). by rewrite !mulrA divfK // [gamma / _]mulrC mulfK.
  Qed.
  Lemma solution_minimises n d q (Phi : 'M[R]_(n, d)) gamma (Y h : 'M[R]_(n, q)) b w' b' : (0 < n)%N -> (0 < q)%N -> 0 < gamma ->
    gamma ^+ 2 = q%:R -> solve_dual (Phi *m Phi^T) gamma Y = Some (h, b) ->
    lssvm_loss Phi gamma Y (Phi^T *m h) b <= lssvm_loss Phi gamma Y w' b'.
  Proof.
    move=> Hn Hq Hg Hsq Hd. rewrite !loss_objective // -Hsq expr2 mulfK ?gt_eqF //.
    have [h' [b0 [E Hk]]] := solve_dual_kkt (@outer_psd _ _ _ Phi) Hg Hn Y. rewrite E in Hd. case: Hd => Eh Eb. subst h' b0.
    apply: ler_wpmul2l; last by apply: kkt_optimal => //; apply: ltW.
    by rewrite mulr_ge0 ?invr_ge0 ?ler0n // ltW.
  Qed.

  (** The residual under kappa. *)
  Lemma kappa_residual n q (K : 'M[R]_n) gamma kappa (Y h : 'M[R]_(n, q)) b : psd K -> 0 < gamma -> (0 < n)%N ->
    solve_dual K gamma Y = Some (h, b) ->
    Y - predict_dual kappa h b K = gamma *: h + (1 - Num.sqrt kappa) *: rows_all n b.
  Proof.
    move=> HK Hg Hn Hd. have [h' [b0 [E [Hk _]]]] := solve_dual_kkt HK Hg Hn Y. rewrite E in Hd. case: Hd => Eh Eb. subst h' b0.
    rewrite /predict_dual rows_all_ones -Hk scalerBl scale1r opprD opprD !addrA. by rewrite subrK.
  Qed.
  Lemma residual_one n q (K : 'M[R]_n) gamma (Y h : 'M[R]_(n, q)) b : psd K -> 0 < gamma -> (0 < n)%N ->
    solve_dual K gamma Y = Some (h, b) -> Y - predict_dual 1 h b K = gamma *: h.
  Proof. move=> HK Hg Hn Hd. by rewrite (kappa_residual 1 HK Hg Hn Hd) sqrtr1 subrr scale0r addr0. Qed.
  Lemma one_point_kkt (K gamma y : R) : kkt K%:M gamma (y%:M : 'M[R]_1) (0 : 'M[R]_1) y%:M.
  Proof.
    split; last by move=> j; rewrite big1 // => i _; rewrite mxE.
    rewrite mulmx0 scaler0 add0r. apply/matrixP => i j. by rewrite !mxE !ord1 eqxx subrr.
  Qed.
  Lemma kappa_spoils (K gamma kappa y : R) : 0 <= K -> 0 < gamma -> 0 <= kappa -> kappa != 1 -> y != 0 ->
    exists h b, solve_dual (K%:M : 'M[R]_1) gamma (y%:M : 'M[R]_1) = Some (h, b) /\
      (y%:M : 'M[R]_1) - predict_dual kappa h b K%:M != gamma *: h.
  Proof.
    move=> HK Hg Hk0 Hk Hy.
    have HP : psd (K%:M : 'M[R]_1).
    { move=> c. rewrite /qform mul_mx_scalar -scalemxAl !mxE big_ord_recl big_ord0 addr0 !mxE -expr2. apply: mulr_ge0 => //. exact: sqr_ge0. }
    have Hd := solve_dual_unique HP Hg (ltn0Sn 0) (one_point_kkt K gamma y).
    exists 0, y%:M. split=> //. rewrite (kappa_residual kappa HP Hg (ltn0Sn 0) Hd) scaler0 add0r.
    apply/eqP => H. have := congr1 (fun A : 'M[R]_1 => A 0 0) H. rewrite !mxE eqxx mulr1n => /eqP.
    rewrite mulf_eq0 (negbTE Hy) orbF subr_eq0 => /eqP Hs. move: Hk. by rewrite -(sqr_sqrtr Hk0) -Hs expr1n eqxx.
  Qed.
End Loss.

(** * Two points: features 0 and 1, targets 0 and 1 *)
Section Witness.
  Variable R : rcfType.
  Definition ex_features : 'M[R]_(2, 1) := \matrix_(i, j) (i : nat)%:R.
  Definition ex_targets : 'M[R]_(2, 1) := \matrix_(i, j) (i : nat)%:R.
  (** Opposite dual variables. *)
  Definition ex_hidden (a : R) : 'M[R]_(2, 1) := \matrix_(i, j) (if i == 0 then - a else a).

  Lemma ex_kernel_hidden a : (ex_features *m ex_features^T) *m ex_hidden a = \matrix_(i, j) ((i : nat)%:R * a).
  Proof.
    apply/matrixP => i j. rewrite !mxE !big_ord_recl big_ord0 !mxE !big_ord_recl !big_ord0 !mxE /= /bump /=.
    by rewrite !addr0 !mulr0 mul0r add0r mulr1.
  Qed.
  Lemma ex_kkt (gamma a : R) : a * (1 + gamma + gamma) = 1 ->
    kkt (ex_features *m ex_features^T) gamma ex_targets (ex_hidden a) (gamma * a)%:M.
  Proof.
    move=> H. split.
    - rewrite ex_kernel_hidden. apply/matrixP => i j. rewrite !ord1 !mxE. case: i => [[|[|//]] Hi] /=.
      + by rewrite mul0r !add0r mulr1n mulrN.
      + rewrite mul1r mulr1n -H !mulrDr mulr1 ![a * gamma]mulrC. by rewrite addrC addKr.
    - move=> j. by rewrite !big_ord_recl big_ord0 !mxE /= addr0 addNr.
  Qed.

  Lemma ex_dual (gamma a : R) : 0 < gamma -> a * (1 + gamma + gamma) = 1 ->
    solve_dual (ex_features *m ex_features^T) gamma ex_targets = Some (ex_hidden a, (gamma * a)%:M).
  Proof. move=> Hg H. apply: solve_dual_unique => //; [exact: outer_psd|exact: ex_kkt]. Qed.

  (** The primal system for the regularisation 1. *)
  Lemma ex_gram : ex_features^T *m ex_features = 1%:M.
  Proof.
    apply/matrixP => i j. rewrite !ord1 !mxE !big_ord_recl big_ord0 !mxE /=. by rewrite mulr0 add0r addr0 mulr1.
  Qed.
  Lemma ex_sum : (ones R 2)^T *m ex_features = 1%:M.
  Proof.
    apply/matrixP => i j. rewrite !ord1 !mxE !big_ord_recl big_ord0 !mxE /=. by rewrite mulr0 add0r addr0 mulr1.
  Qed.
  Lemma ex_sum' : ex_features^T *m ones R 2 = 1%:M.
  Proof. by rewrite -[LHS]trmxK trmx_mul trmxK ex_sum trmx1. Qed.
  Lemma scalar1 (x : 'M[R]_1) : x = (x 0 0)%:M.
  Proof. exact: mx11_scalar. Qed.
  Lemma ex_primal_unit : primal_system ex_features 1 \in unitmx.
  Proof.
    apply: unit_left => v. rewrite -[v]hsubmxK. move: (lsubmx v) (rsubmx v) => x b. rewrite primal_scaled => /scaled_left.
    rewrite ex_gram ex_sum ex_sum' !mulmx1 scale1r => [[H1 H2]].
    have E2 : x = - (2%:R *: b) by apply/eqP; rewrite -addr_eq0; apply/eqP.
    have E1 : b = 0.
    { move: H1. rewrite E2 mulNmx mulmxDr mulmx1 -scalemxAr mulmx1 scalerA mulVf ?pnatr_eq0 // scale1r opprD.
      rewrite [- b - _]addrC subrK => /eqP. by rewrite oppr_eq0 scaler_eq0 pnatr_eq0 /= => /eqP. }
    by rewrite E2 E1 scaler0 oppr0 row_mx0.
  Qed.
  Lemma ex_primal : solve_primal ex_features 1 ex_targets = Some ((2%:R^-1)%:M, (4%:R^-1)%:M).
  Proof.
    have H2 : 2%:R^-1 + 2%:R^-1 = 1 :> R by rewrite -[2%:R^-1]mul1r -mulrDl (divff (_ : 2%:R != 0)) // pnatr_eq0.
    have H4 : 4%:R^-1 + 4%:R^-1 = 2%:R^-1 :> R by rewrite -[4%N]/(2 * 2)%N natrM invfM -mulrDr H2 mulr1.
    have E : primal_system ex_features 1 *m col_mx (2%:R^-1)%:M (4%:R^-1)%:M = primal_rhs ex_features ex_targets.
    { rewrite primal_scaled. apply/scaled_equations. rewrite ex_gram ex_sum mul1mx scale1r -rows_all_ones mulmxA ex_sum' mul1mx.
      split; apply/matrixP => i j; rewrite !ord1 !mxE ?eqxx ?mulr1n.
      - rewrite big_ord_recl big_ord0 !mxE eqxx !mulr1n addr0 mulr1. by rewrite -invfM -natrM [_^-1 + 2%:R^-1]addrC -addrA H4 H2.
      - by rewrite mulr2n mulrDl mul1r H4 H2. }
    by rewrite /solve_primal (linsolve_unit ex_primal_unit E) /= col_mxKu col_mxKd.
  Qed.

  (** The predictions differ on the first point. *)
  Lemma ex_differ : exists h b w b', solve_dual (ex_features *m ex_features^T) 1 ex_targets = Some (h, b) /\
    solve_primal ex_features 1 ex_targets = Some (w, b') /\
    predict_primal 1 w b' ex_features 0 0 != predict_dual 1 h b (ex_features *m ex_features^T) 0 0.
  Proof.
    have H3 : 3%:R^-1 * (1 + 1 + 1) = 1 :> R.
    { have -> : 1 + 1 + 1 = 3%:R :> R by rewrite -[RHS]/(1 + (1 + 1)) addrA. by rewrite mulVf // pnatr_eq0. }
    exists (ex_hidden 3%:R^-1), (1 * 3%:R^-1)%:M, (2%:R^-1)%:M, (4%:R^-1)%:M.
    split; [exact: (ex_dual ltr01 H3)|]. split; [exact: ex_primal|].
    rewrite /predict_dual ex_kernel_hidden /predict_primal sqrtr1 !scale1r !rows_all_ones !mxE big_ord_recl big_ord0 !mxE /=.
    rewrite !mulr1n !mul0r !add0r mul1r. by rewrite (inj_eq invr_inj) eqr_nat.
  Qed.

  (** The loss on these points. *)
  Lemma ex_loss (w b : R) : lssvm_loss ex_features 2%:R ex_targets w%:M b%:M = 2%:R^-1 * w ^+ 2 + (b ^+ 2 + (w + b - 1) ^+ 2).
  Proof.
    rewrite /lssvm_loss /mse predict_one !big_ord_recl !big_ord0 !mxE !big_ord_recl !big_ord0 !mxE /= /bump /=.
    by rewrite !mulr1n !addr0 mul0r add0r subr0 muln1 mul1r [2%:R * _]mulrA divff ?pnatr_eq0 // mul1r.
  Qed.
  Lemma ex_weights (a : R) : ex_features^T *m ex_hidden a = a%:M.
  Proof.
    apply/matrixP => i j. rewrite !ord1 !mxE !big_ord_recl big_ord0 !mxE /=. by rewrite mul0r add0r addr0 mul1r.
  Qed.
  Lemma ex_not_minimal : exists h b w' b', solve_dual (ex_features *m ex_features^T) 2%:R ex_targets = Some (h, b) /\
    lssvm_loss ex_features 2%:R ex_targets w' b' < lssvm_loss ex_features 2%:R ex_targets (ex_features^T *m h) b.
  Proof.
    set a : R := 5%:R^-1.
    have H5 : 5%:R * a = 1 by rewrite mulfV // pnatr_eq0.
    have H : a * (1 + 2%:R + 2%:R) = 1 by rewrite -(natrD R 1 2) -natrD mulrC.
    exists (ex_hidden a), (2%:R * a)%:M, (2%:R * a)%:M, (2%:R * a)%:M. have H2 : 0 < 2%:R :> R by rewrite ltr0n.
    split; first exact: (ex_dual H2 H).
    rewrite ex_weights !ex_loss.
    have E5 : 1 = 4%:R * a + a by rewrite -[X in _ + X]mul1r -mulrDl -(natrD R 4 1).
    have E5' : 1 = 3%:R * a + 2%:R * a by rewrite -mulrDl -(natrD R 3 2).
    have -> : 2%:R * a + 2%:R * a - 1 = - a.
    { by rewrite -mulrDl -natrD [X in _ - X]E5 opprD addrA subrr sub0r. }
    have -> : a + 2%:R * a - 1 = - (2%:R * a).
    { have -> : a + 2%:R * a = 3%:R * a by rewrite -[X in X + _]mul1r -mulrDl -(natrD R 1 2).
      by rewrite [X in _ - X]E5' opprD addrA subrr sub0r. }
    have Ha : 0 < a ^+ 2 by rewrite exprn_gt0 // invr_gt0 ltr0n.
    rewrite !sqrrN addrCA [X in _ < X]addrCA ltr_add2l.
    have -> : (2%:R * a) ^+ 2 = 4%:R * a ^+ 2 by rewrite exprMn -natrX.
    rewrite mulrA -[4%N]/(2 * 2)%N natrM [2%:R^-1 * _]mulrA mulVf ?pnatr_eq0 // mul1r -[X in _ + X]mul1r -mulrDl -mulrDl ltr_pmul2r // -(natrD R 2 1) -natrM.
    apply: (@lt_trans _ _ 4%:R); first by rewrite ltr_nat. by rewrite ltr_addr invr_gt0 ltr0n.
  Qed.
End Witness.
