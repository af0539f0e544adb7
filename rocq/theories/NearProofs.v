(** Outputs of models at two points: proofs. *)
From mathcomp Require Import all_ssreflect all_fingroup all_algebra.
From Verif Require Import RingId RingId3 NystromM MatrixSpec NystromMProofs KpcaM KpcaSpec KpcaMProofs LssvmM LssvmSpec LssvmMProofs
  LssvmMonoProofs NystromOosProofs NearSpec.
Set Implicit Arguments. Unset Strict Implicit. Unset Printing Implicit Defensive.
Import GRing.Theory Num.Theory Order.POrderTheory Order.TotalTheory.
Local Open Scope ring_scope.

Section Quadratic.
  Variable R : rcfType.
  (** A polynomial of degree two that is nowhere negative. *)
  Lemma never_negative (A B C : R) : 0 <= A -> (forall t : R, 0 <= t ^+ 2 * A + t * B + t * B + C) -> B ^+ 2 <= A * C.
  Proof.
    move=> A0 P. case: (eqVneq A 0) => [Z | N].
      rewrite Z mul0r. case: (eqVneq B 0) => [-> | NB]; first by rewrite expr0n.
      have := P (- (C + 1) / (B + B)). rewrite Z mulr0 add0r -mulrDr.
      have N2 : B + B != 0 by rewrite -mulr2n mulrn_eq0 negb_or.
      rewrite divfK // opprD addrAC addNr add0r => H. by move: H; rewrite oppr_ge0 ler10.
    have Ap : 0 < A by rewrite lt_neqAle eq_sym N A0.
    have := P (- (B / A)). rewrite sqrrN expr_div_n !mulNr.
    have -> : B ^+ 2 / A ^+ 2 * A = B ^+ 2 / A by rewrite [A ^+ 2]expr2 invfM mulrA divfK.
    have -> : B / A * B = B ^+ 2 / A by rewrite expr2 mulrAC.
    by rewrite subrr sub0r addrC subr_ge0 ler_pdivr_mulr // mulrC.
  Qed.
End Quadratic.

Section Near.
  Variables (R : rcfType) (n m : nat).
  Variables (K : 'M[R]_n) (k : 'M[R]_(m, n)) (G : 'M[R]_m).
  Hypothesis P : psd (block_mx K k^T k G).

  Lemma qform0 p (M : 'M[R]_p) : qform M 0 = 0.
  Proof. by rewrite /qform mulmx0 mxE. Qed.
  Lemma near_psd : psd K.
  Proof.
    move=> a. have := P (col_mx a 0). rewrite qform_block qform0 addr0.
    rewrite big1 ?addr0 // => j _. by rewrite mulmx0 mxE mulr0.
  Qed.
  Lemma qformZ p (M : 'M[R]_p) t a : qform M (t *: a) = t ^+ 2 * qform M a.
  Proof.
    have T : (t *: a)^T = t *: a^T by rewrite linearZ.
    by rewrite /qform T -scalemxAr -scalemxAl -scalemxAl mxE [X in t * X]mxE mulrA expr2.
  Qed.
  (** The weights against a combination of the points. *)
  Lemma near_cauchy (a : 'cV[R]_n) (c : 'cV[R]_m) : ((c^T *m k *m a) 0 0) ^+ 2 <= qform K a * qform G c.
  Proof.
    have E : (c^T *m k *m a) 0 0 = \sum_j a j 0 * (k^T *m c) j 0.
      have -> : (c^T *m k *m a) 0 0 = (c^T *m k *m a)^T 0 0 by rewrite [RHS]mxE.
      rewrite trmx_mul trmx_mul trmxK mxE. by apply: eq_bigr => j _; rewrite [a^T _ _]mxE.
    rewrite E. apply: never_negative; first exact: near_psd.
    move=> t. have := P (col_mx (t *: a) c). rewrite qform_block qformZ.
    have -> : \sum_j (t *: a) j 0 * (k^T *m c) j 0 = t * \sum_j a j 0 * (k^T *m c) j 0.
      rewrite big_distrr /=. apply: eq_bigr => j _. by rewrite [X in X * _]mxE mulrA.
    by [].
  Qed.
  Lemma norm_qform q (h : 'M[R]_(n, q)) j : weight_norm2 K h j = qform K (col j h).
  Proof.
    rewrite /weight_norm2 /qform -mulmxA [RHS]mxE. apply: eq_bigr => a _. rewrite [(col j h)^T _ _]mxE [col j h _ _]mxE.
    rewrite [(K *m _) _ _]mxE big_distrr /=. apply: eq_bigr => b _. by rewrite [col j h _ _]mxE mulrA.
  Qed.
  Definition apart (x y : 'I_m) : 'cV[R]_m := delta_mx x 0 - delta_mx y 0.
  Lemma delta_entry x y : ((delta_mx x 0 : 'cV[R]_m)^T *m G *m (delta_mx y 0 : 'cV[R]_m)) 0 0 = G x y.
  Proof. by rewrite trmx_delta -rowE -colE !mxE. Qed.
  Lemma trB p q (A B : 'M[R]_(p, q)) : (A - B)^T = A^T - B^T.
  Proof. by rewrite linearB. Qed.
  Lemma subE p q (A B : 'M[R]_(p, q)) i j : (A - B) i j = A i j - B i j.
  Proof. by rewrite !mxE. Qed.
  Lemma apart_form x y : qform G (apart x y) = kernel_dist2 G x y.
  Proof.
    rewrite /qform /apart trB mulmxBl mulmxBl mulmxBr mulmxBr !subE !delta_entry /kernel_dist2.
    by rewrite opprB addrA addrAC -addrA addrAC addrA addrAC.
  Qed.
  Lemma apart_value (a : 'cV[R]_n) x y : ((apart x y)^T *m k *m a) 0 0 = (k *m a) x 0 - (k *m a) y 0.
  Proof.
    rewrite -mulmxA /apart trB mulmxBl subE !trmx_delta -!rowE.
    by rewrite [row x _ _ _]mxE [row y _ _ _]mxE.
  Qed.
  Lemma bias_entry q (b : 'rV[R]_q) x j : (ones R m *m b) x j = b 0 j.
  Proof. rewrite mxE big_ord1 mxE mul1r. by []. Qed.
  Lemma predict_entry q kappa (h : 'M[R]_(n, q)) b x j :
    predict_dual kappa h b k x j = (k *m col j h) x 0 + Num.sqrt kappa * b 0 j.
  Proof.
    rewrite /predict_dual [LHS]mxE [X in _ + X = _]mxE bias_entry. congr (_ + _).
    rewrite [LHS]mxE [RHS]mxE. by apply: eq_bigr => i _; rewrite [col j h _ _]mxE.
  Qed.

  Theorem near_predictions q kappa (h : 'M[R]_(n, q)) b x y j :
    (predict_dual kappa h b k x j - predict_dual kappa h b k y j) ^+ 2 <= weight_norm2 K h j * kernel_dist2 G x y.
  Proof.
    rewrite !predict_entry opprD addrACA subrr addr0 -apart_value norm_qform -apart_form. exact: near_cauchy.
  Qed.
  Theorem near_bias q kappa (h : 'M[R]_(n, q)) b x j :
    (predict_dual kappa h b k x j - Num.sqrt kappa * b 0 j) ^+ 2 <= weight_norm2 K h j * G x x.
  Proof.
    rewrite !predict_entry addrK norm_qform.
    have -> : (k *m col j h) x 0 = ((delta_mx x 0 : 'cV[R]_m)^T *m k *m col j h) 0 0.
      by rewrite -mulmxA trmx_delta -rowE [RHS]mxE.
    have -> : G x x = qform G (delta_mx x 0) by rewrite /qform delta_entry.
    exact: near_cauchy.
  Qed.

  (** The weights of a trained model. *)
  Lemma trained_norm (g : R) (Y h : 'cV[R]_n) (b : 'rV[R]_1) (c : R) : 0 < g -> kkt K g Y h b ->
    4%:R * g * dv h (K *m h) <= \sum_i (Y i 0 - c) ^+ 2.
  Proof.
    move=> g0 H. have [_ S] := H. rewrite (kkt_mul H) !dvDr !dvNr dv_rows // subr0 dvZr.
    set Z : 'cV[R]_n := \col_i (Y i 0 - c).
    have -> : dv h Y = dv h Z.
      have -> : Z = Y - rows_all n (const_mx c : 'rV[R]_1) by apply/matrixP => i j; rewrite !mxE ord1.
      by rewrite dvDr dvNr dv_rows // subr0.
    have -> : \sum_i (Y i 0 - c) ^+ 2 = dv Z Z by rewrite dv_sum; apply: eq_bigr => i _; rewrite !mxE expr2.
    have := dv_ge0 (Z - (2%:R * g) *: h).
    rewrite dvDl !dvDr !dvNl !dvNr !dvZl !dvZr [dv Z h]dvC opprK.
    set u := dv h Z. set v := dv h h. set w := dv Z Z.
    have -> : 4%:R * g * (u - g * v) = w - (w - 2%:R * g * u + (- (2%:R * g * u) + 2%:R * g * (2%:R * g * v))).
      have E4 : 4%:R = 2%:R * 2%:R :> R by rewrite -natrM.
      rewrite E4 energy_identity -rest_identity. congr (_ - _).
      by rewrite -!mulrA [LHS]mulr_natl mulr2n.
    move=> D. by rewrite ler_subl_addr ler_addl.
  Qed.
End Near.

Section Trained.
  Variables (R : rcfType) (n m q : nat).
  Variables (K : 'M[R]_n) (k : 'M[R]_(m, n)) (G : 'M[R]_m) (g : R) (Y h : 'M[R]_(n, q)) (b : 'rV[R]_q).
  Hypothesis P : psd (block_mx K k^T k G).
  Hypothesis npos : (0 < n)%N.
  Hypothesis g0 : 0 < g.
  Hypothesis S : solve_dual K g Y = Some (h, b).

  Lemma trained_weights j c : 4%:R * g * weight_norm2 K h j <= \sum_i (Y i j - c) ^+ 2.
  Proof.
    have H := kkt_col j (solved (near_psd P) npos g0 S).
    rewrite norm_qform. have -> : qform K (col j h) = dv (col j h) (K *m col j h) by rewrite /qform /dv mulmxA.
    have -> : \sum_i (Y i j - c) ^+ 2 = \sum_i (col j Y i 0 - c) ^+ 2 by apply: eq_bigr => i _; rewrite mxE.
    exact: (trained_norm c g0 H).
  Qed.
  Lemma with_weights (u w d s : R) : 0 <= d -> u <= w * d -> 4%:R * g * w <= s -> 4%:R * g * u <= s * d.
  Proof.
    move=> d0 U W. apply: (@le_trans _ _ (4%:R * g * w * d)); last exact: ler_wpmul2r.
    rewrite -[X in _ <= X]mulrA ler_pmul2l //. by apply: mulr_gt0 => //; rewrite ltr0n.
  Qed.
  Lemma G_psd : psd G.
  Proof.
    move=> c. have := P (col_mx 0 c). rewrite qform_block qform0 add0r.
    rewrite big1 ?add0r // => j _. by rewrite mxE mul0r.
  Qed.
  Lemma dist_ge0 x y : 0 <= kernel_dist2 G x y.
  Proof. rewrite -apart_form. exact: G_psd. Qed.
  Theorem near_trained kappa x y j c :
    4%:R * g * (predict_dual kappa h b k x j - predict_dual kappa h b k y j) ^+ 2 <= (\sum_i (Y i j - c) ^+ 2) * kernel_dist2 G x y.
  Proof.
    apply: with_weights; [exact: dist_ge0 | exact: (near_predictions P) | exact: trained_weights].
  Qed.
  Theorem near_trained_bias kappa x j c :
    4%:R * g * (predict_dual kappa h b k x j - Num.sqrt kappa * b 0 j) ^+ 2 <= (\sum_i (Y i j - c) ^+ 2) * G x x.
  Proof.
    apply: with_weights; [| exact: (near_bias P) | exact: trained_weights].
    have := G_psd (delta_mx x 0). by rewrite /qform delta_entry.
  Qed.
End Trained.

Section Components.
  Variable R : rcfType.
  Lemma sum_weighted q (v a : 'I_q -> R) (D : R) : (forall i, 0 < v i) -> \sum_i a i ^+ 2 / v i <= D ->
    \sum_i a i ^+ 2 <= (\sum_i v i) * D.
  Proof.
    move=> V H. apply: (@le_trans _ _ ((\sum_i v i) * \sum_i a i ^+ 2 / v i)); last first.
      apply: ler_wpmul2l => //. by apply: sumr_ge0 => i _; apply: ltW.
    rewrite big_distrr /=. apply: ler_sum => i _. have N : v i != 0 by rewrite gt_eqF.
    rewrite -[X in X <= _](divfK N).
    rewrite [X in X <= _]mulrC. apply: ler_wpmul2r; first by apply: divr_ge0; [exact: sqr_ge0 | exact: ltW].
    rewrite (bigD1 i) //= ler_addl. by apply: sumr_ge0 => j _; apply: ltW.
  Qed.

  Section Dual.
    Variables (n m : nat) (K : 'M[R]_n) (s : 'rV[R]_n) (V : 'M[R]_n) (eps : R) (c : nat) (Hc : (c <= n)%N).
    Variables (k : 'M[R]_(m, n)) (G : 'M[R]_m).
    Hypothesis E : eigendecomposition K s V.
    Hypothesis e0 : 0 < eps.
    Hypothesis npos : (0 < n)%N.
    Hypothesis P : psd (block_mx K k^T k G).
    Local Notation H := (dual_param eps Hc s V).
    Local Notation vals := (dual_vals eps Hc s).
    Lemma dual_gt0 i : 0 < n%:R * vals 0 i.
    Proof.
      rewrite mxE mulrA mulfV ?mul1r; last by rewrite pnatr_eq0 -lt0n.
      exact: lt_le_trans e0 (vals_ge i).
    Qed.
    Theorem near_dual x y :
      \sum_i (forward_dual H k x i - forward_dual H k y i) ^+ 2 / (n%:R * vals 0 i) <= kernel_dist2 G x y.
    Proof.
      have := oos_below E Hc e0 P (apart R x y).
      set N := nystrom_oos _ _ _ _ _.
      have -> : qform (G - N *m N^T) (apart R x y) = qform G (apart R x y) - qform (N *m N^T) (apart R x y).
        by rewrite /qform [X in X *m _]mulmxBr mulmxBl subE.
      rewrite apart_form gram_form subr_ge0. apply: le_trans. apply: ler_sum => i _.
      have -> : n%:R * vals 0 i = prune_values eps (eigs_values Hc s) 0 i.
        by rewrite mxE mulrA mulfV ?mul1r // pnatr_eq0 -lt0n.
      set v := prune_values _ _ _ _. have v0 : 0 < v by exact: lt_le_trans e0 (vals_ge i).
      have T : (N^T *m apart R x y) i 0 = N x i - N y i.
        rewrite /apart mulmxBr subE -!colE. by rewrite [col x _ _ _]mxE [col y _ _ _]mxE [N^T i x]mxE [N^T i y]mxE.
      have NE : forall z, N z i = forward_dual H k z i / Num.sqrt v.
        move=> z. rewrite /N /nystrom_oos /oos_phi mul_diag_entry. by rewrite [X in _ * X]mxE.
      by rewrite T !NE -mulrBl expr_div_n sqr_sqrtr // ltW.
    Qed.
    Theorem near_dual_total x y :
      \sum_i (forward_dual H k x i - forward_dual H k y i) ^+ 2 <= n%:R * model_variance vals * kernel_dist2 G x y.
    Proof.
      rewrite /model_variance big_distrr /=. apply: sum_weighted; [exact: dual_gt0 | exact: near_dual].
    Qed.
  End Dual.

  Section Primal.
    Variables (d m : nat) (C : 'M[R]_d) (s : 'rV[R]_d) (V : 'M[R]_d) (eps : R) (c : nat) (Hc : (c <= d)%N).
    Variable phi : 'M[R]_(m, d).
    Hypothesis E : eigendecomposition C s V.
    Hypothesis e0 : 0 < eps.
    Local Notation U := (primal_param eps Hc s V).
    Local Notation vals := (primal_vals eps Hc s).
    Lemma primal_gt0 i : 0 < vals 0 i.
    Proof. exact: lt_le_trans e0 (vals_ge i). Qed.
    Lemma bessel (u : 'rV[R]_d) : frobenius2 (u *m U) <= frobenius2 u.
    Proof.
      have O : orthonormal U by apply: (param_orthonormal E).
      rewrite -subr_ge0 !frobenius2_trace trmx_mul.
      have -> : \tr (u *m u^T) = \tr (u^T *m u) by exact: mxtrace_mulC.
      have -> : \tr (u *m U *m (U^T *m u^T)) = \tr (U *m U^T *m (u^T *m u)).
        by rewrite -!mulmxA mxtrace_mulC -!mulmxA.
      rewrite -(residual u O). exact: frobenius2_ge0.
    Qed.
    Theorem near_primal x y :
      \sum_i (forward_primal U vals phi x i - forward_primal U vals phi y i) ^+ 2 / vals 0 i <= \sum_l (phi x l - phi y l) ^+ 2.
    Proof.
      have := bessel (row x phi - row y phi). rewrite /frobenius2 !big_ord1.
      have -> : \sum_j ((row x phi - row y phi) 0 j) ^+ 2 = \sum_l (phi x l - phi y l) ^+ 2.
        by apply: eq_bigr => l _; rewrite !mxE.
      apply: le_trans. apply: ler_sum => i _.
      have F : forall z, forward_primal U vals phi z i = (phi *m U) z i * Num.sqrt (vals 0 i).
        move=> z. rewrite /forward_primal /weight mulmxA mul_diag_entry. by rewrite [X in _ * X]mxE.
      rewrite !F -mulrBl exprMn sqr_sqrtr; last exact: ltW (primal_gt0 i).
      rewrite mulfK; last by rewrite gt_eqF ?primal_gt0.
      rewrite mulmxBl subE -!row_mul. by rewrite [row x _ _ _]mxE [row y _ _ _]mxE.
    Qed.
    Theorem near_primal_total x y :
      \sum_i (forward_primal U vals phi x i - forward_primal U vals phi y i) ^+ 2 <= model_variance vals * \sum_l (phi x l - phi y l) ^+ 2.
    Proof. apply: sum_weighted; [exact: primal_gt0 | exact: near_primal]. Qed.
  End Primal.
End Components.
