(** Least-squares support vector machines: proofs. *)
From mathcomp Require Import all_ssreflect all_algebra.
From Verif Require Import MatrixSpec KpcaM KpcaSpec KpcaMProofs LssvmM LssvmSpec.
Set Implicit Arguments. Unset Strict Implicit. Unset Printing Implicit Defensive.
Import GRing.Theory Num.Theory Order.POrderTheory Order.TotalTheory.
Local Open Scope ring_scope.

Section Group.
  Variable V : zmodType.
  Lemma shift_residual (a p p0 r r0 : V) : a - (p + r) = a - (p0 + r0) - ((p - p0) + (r - r0)).
  Proof. by rewrite addrACA -opprD opprB addrA subrK. Qed.
  Lemma cancel_cross (a x c e f : V) : a + x + c + (e - x + f) = a + e + (c + f).
  Proof. by rewrite [a + x + c]addrAC [e - x + f]addrAC addrACA subrr addr0 addrACA. Qed.
End Group.

Section Generic.
  Variable R : rcfType.

  Lemma rows_all_ones m q (b : 'rV[R]_q) : ones R m *m b = rows_all m b.
  Proof. apply/matrixP => i j. by rewrite !mxE big_ord_recl big_ord0 addr0 !mxE mul1r. Qed.
  Lemma sums_ones n q (h : 'M[R]_(n, q)) : sums_to_zero h <-> (ones R n)^T *m h = 0.
  Proof.
    split.
    - move=> H. apply/matrixP => i j. rewrite !mxE. have -> : \sum_k (ones R n)^T i k * h k j = \sum_k h k j by apply: eq_bigr => k _; rewrite !mxE mul1r.
      exact: H.
    - move=> H j. have := congr1 (fun A : 'M[R]_(1, q) => A 0 j) H. rewrite !mxE => E.
      have <- : \sum_k (ones R n)^T 0 k * h k j = \sum_k h k j by apply: eq_bigr => k _; rewrite !mxE mul1r.
      exact: E.
  Qed.
  Lemma unit_left m (A : 'M[R]_m) : (forall v : 'rV[R]_m, v *m A = 0 -> v = 0) -> A \in unitmx.
  Proof. move=> H. rewrite -row_free_unit -kermx_eq0. apply/rowV0P => v /sub_kermxP Hv. exact: H. Qed.
  Lemma linsolve_unit m q (A : 'M[R]_m) (B X : 'M[R]_(m, q)) : A \in unitmx -> A *m X = B -> linsolve A B = Some X.
  Proof. move=> HA <-. by rewrite /linsolve HA mulKmx. Qed.
  Lemma linsolve_eq m q (A : 'M[R]_m) (B X : 'M[R]_(m, q)) : linsolve A B = Some X -> A *m X = B.
  Proof. rewrite /linsolve. case: ifP => // HA [<-]. by rewrite mulKVmx. Qed.
  (** A row times itself. *)
  Lemma row_self n (v : 'rV[R]_n) : (v *m v^T) 0 0 = frobenius2 v.
  Proof. rewrite frobenius2_trace /mxtrace. by rewrite big_ord_recl big_ord0 addr0. Qed.
End Generic.

Section Dual.
  Variable R : rcfType.
  Variable n : nat.
  Variable K : 'M[R]_n.
  Variable gamma : R.
  Hypothesis Kpsd : psd K.
  Hypothesis gamma_pos : 0 < gamma.
  Hypothesis npos : (0 < n)%N.

  Lemma dual_unit : dual_system K gamma \in unitmx.
  Proof.
    apply: unit_left => v. rewrite -[v]hsubmxK. move: (lsubmx v) (rsubmx v) => x b.
    rewrite /dual_system mul_row_block mulmx0 addr0 => H.
    have [H1 H2] : x *m (K + gamma *: 1%:M) + b *m (ones R n)^T = 0 /\ x *m ones R n = 0.
    { apply: eq_row_mx. rewrite H. apply/matrixP => i j. rewrite !mxE. case: split => k; by rewrite !mxE. }
    have Hx : x = 0.
    { have E : ((x *m (K + gamma *: 1%:M) + b *m (ones R n)^T) *m x^T) 0 0 = 0 by rewrite H1 mul0mx mxE.
      rewrite mulmxDl -[b *m _ *m _]mulmxA -trmx_mul H2 trmx0 mulmx0 addr0 in E.
      rewrite mulmxDr mulmxDl mxE -scalemxAr mulmx1 -scalemxAl [X in _ + X]mxE row_self in E.
      have Hq : 0 <= (x *m K *m x^T) 0 0. { have := Kpsd x^T. by rewrite /qform trmxK. }
      have Hf := frobenius2_ge0 x.
      apply: frobenius2_eq0. apply/eqP. rewrite eq_le Hf andbT -(pmulr_rle0 _ gamma_pos).
      move/eqP: E. rewrite addrC addr_eq0 => /eqP ->. by rewrite oppr_le0. }
    subst x. rewrite mul0mx add0r in H1.
    have Hb : b = 0.
    { apply/matrixP => i j. have := congr1 (fun A : 'M[R]_(1, n) => A i (Ordinal npos)) H1.
      rewrite !mxE big_ord_recl big_ord0 addr0 !mxE mulr1 !ord1 => ->. done. }
    by rewrite Hb row_mx0.
  Qed.

  Lemma dual_equations q (Y h : 'M[R]_(n, q)) b : dual_system K gamma *m col_mx h b = dual_rhs Y <-> kkt K gamma Y h b.
  Proof.
    rewrite /dual_system /dual_rhs /kkt mul_block_col mul0mx addr0 sums_ones mulmxDl -scalemxAl mul1mx rows_all_ones. split.
    - move=> /eq_col_mx [<- ->]. split=> //. by rewrite [_ *m h + _ + _]addrAC addrC addKr.
    - move=> [H ->]. congr col_mx. by rewrite addrAC -H addrC subrK.
  Qed.
  Lemma solve_dual_kkt q (Y : 'M[R]_(n, q)) : exists h b, solve_dual K gamma Y = Some (h, b) /\ kkt K gamma Y h b.
  Proof.
    rewrite /solve_dual. case E: (linsolve _ _) => [sol|].
    - exists (usubmx sol), (dsubmx sol). split=> //. apply/dual_equations. rewrite vsubmxK. exact: linsolve_eq.
    - by rewrite /linsolve dual_unit in E.
  Qed.
  Lemma solve_dual_unique q (Y h : 'M[R]_(n, q)) b : kkt K gamma Y h b -> solve_dual K gamma Y = Some (h, b).
  Proof.
    move=> /dual_equations H. rewrite /solve_dual (linsolve_unit dual_unit H) /=. by rewrite col_mxKu col_mxKd.
  Qed.
End Dual.

(** * Optimality *)
Section Optimal.
  Variable R : rcfType.
  Variables n d q : nat.
  Variable Phi : 'M[R]_(n, d).
  Variable Y : 'M[R]_(n, q).

  Definition inner m p (A B : 'M[R]_(m, p)) : R := \tr (A *m B^T).
  Lemma inner_sym m p (A B : 'M[R]_(m, p)) : inner A B = inner B A.
  Proof. by rewrite /inner -mxtrace_tr trmx_mul trmxK. Qed.
  Lemma inner_self m p (A : 'M[R]_(m, p)) : inner A A = frobenius2 A.
  Proof. by rewrite frobenius2_trace. Qed.
  Lemma frobenius2_add m p (A B : 'M[R]_(m, p)) : frobenius2 (A + B) = frobenius2 A + 2%:R * inner A B + frobenius2 B.
  Proof.
    rewrite -!inner_self /inner linearD /= mulmxDl !mulmxDr !mxtraceD -/(inner A B) -/(inner B A) [inner B A]inner_sym.
    rewrite mulr2n mulrDl mul1r !addrA. by [].
  Qed.
  Lemma inner_scale m p a (A B : 'M[R]_(m, p)) : inner (a *: A) B = a * inner A B.
  Proof. by rewrite /inner -scalemxAl mxtraceZ. Qed.
  Lemma inner_opp m p (A B : 'M[R]_(m, p)) : inner A (- B) = - inner A B.
  Proof. by rewrite /inner linearN /= mulmxN linearN. Qed.
  Lemma inner_addr m p (A B C : 'M[R]_(m, p)) : inner A (B + C) = inner A B + inner A C.
  Proof. by rewrite /inner linearD /= mulmxDr mxtraceD. Qed.
  Lemma inner_mul m p r (A : 'M[R]_(m, p)) (B : 'M[R]_(m, r)) (C : 'M[R]_(r, p)) : inner A (B *m C) = inner (B^T *m A) C.
  Proof. by rewrite /inner trmx_mul mulmxA mxtrace_mulC mulmxA. Qed.
  Lemma frobenius2N m p (A : 'M[R]_(m, p)) : frobenius2 (- A) = frobenius2 A.
  Proof. rewrite /frobenius2. apply: eq_bigr => i _. apply: eq_bigr => j _. by rewrite mxE sqrrN. Qed.

  (** The weights of a solution of the optimality conditions minimise the objective. *)
  Lemma kkt_optimal gamma (h : 'M[R]_(n, q)) b (w' : 'M[R]_(d, q)) b' : 0 <= gamma -> kkt (Phi *m Phi^T) gamma Y h b ->
    objective Phi gamma Y (Phi^T *m h) b <= objective Phi gamma Y w' b'.
  Proof.
    move=> Hg [He Hs]. set w := Phi^T *m h.
    have Hones := proj1 (sums_ones h) Hs.
    have E : Y - (Phi *m w + rows_all n b) = gamma *: h by rewrite -He /w mulmxA.
    set dw := w' - w. set db := b' - b. set g := Phi *m dw + rows_all n db.
    have E' : Y - (Phi *m w' + rows_all n b') = gamma *: h + (- g).
    { rewrite -E /g /dw /db -!rows_all_ones !mulmxBr. exact: shift_residual. }
    rewrite /objective E' E frobenius2_add frobenius2N inner_opp.
    have -> : w' = w + dw by rewrite /dw addrC subrK.
    rewrite frobenius2_add.
    have Hin : inner (gamma *: h) g = gamma * inner w dw.
    { rewrite inner_scale /g inner_addr inner_mul -rows_all_ones inner_mul Hones. by rewrite /inner mul0mx mxtrace0 addr0. }
    rewrite Hin mulrDr mulrDr.
    have H1 := frobenius2_ge0 dw. have H2 := frobenius2_ge0 g.
    rewrite mulrN mulrCA.
    have -> : gamma * frobenius2 w + 2%:R * (gamma * inner w dw) + gamma * frobenius2 dw +
              (frobenius2 (gamma *: h) - 2%:R * (gamma * inner w dw) + frobenius2 g) =
              gamma * frobenius2 w + frobenius2 (gamma *: h) + (gamma * frobenius2 dw + frobenius2 g).
    { exact: cancel_cross. }
    rewrite ler_addl. apply: addr_ge0 => //. exact: mulr_ge0.
  Qed.
End Optimal.

(** * The primal system *)
Section Primal.
  Variable R : rcfType.
  Variables n d : nat.
  Variable Phi : 'M[R]_(n, d).
  Hypothesis npos : (0 < n)%N.
  Implicit Type gamma : R.

  Lemma ones_ones : (ones R n)^T *m ones R n = const_mx n%:R.
  Proof.
    apply/matrixP => i j. rewrite !mxE.
    have -> : \sum_k (ones R n)^T i k * ones R n k j = \sum_(k < n) 1 by apply: eq_bigr => k _; rewrite !mxE mulr1.
    by rewrite sumr_const card_ord.
  Qed.
  Lemma nR_neq0 : n%:R != 0 :> R.
  Proof. by rewrite pnatr_eq0 -lt0n. Qed.
  Lemma const_mul q (b : 'rV[R]_q) (a : R) : const_mx a *m b = a *: b.
  Proof. apply/matrixP => i j. by rewrite !mxE big_ord_recl big_ord0 addr0 !mxE !ord1. Qed.
  Lemma mul_const (b : 'rV[R]_1) (a : R) : b *m const_mx a = a *: b.
  Proof. apply/matrixP => i j. by rewrite !mxE big_ord_recl big_ord0 addr0 !mxE !ord1 mulrC. Qed.

  (** A system of this shape, with the Gram matrix of the features scaled by [a]. *)
  Definition scaled_system (a gamma : R) : 'M[R]_(d + 1) :=
    block_mx (a *: (Phi^T *m Phi) + gamma *: 1%:M) (Phi^T *m ones R n) ((ones R n)^T *m Phi) (const_mx n%:R).
  Lemma primal_scaled gamma : primal_system Phi gamma = scaled_system n%:R^-1 gamma.
  Proof. by []. Qed.
  Lemma scaled_left a gamma (x : 'rV[R]_d) (b : 'rV[R]_1) : row_mx x b *m scaled_system a gamma = 0 ->
    x *m (a *: (Phi^T *m Phi) + gamma *: 1%:M) + b *m ((ones R n)^T *m Phi) = 0 /\ x *m (Phi^T *m ones R n) + n%:R *: b = 0.
  Proof.
    rewrite /scaled_system mul_row_block mul_const => H. apply: eq_row_mx. rewrite H.
    apply/matrixP => i j. rewrite !mxE. case: split => k; by rewrite !mxE.
  Qed.
  Lemma scaled_equations q a gamma (Y : 'M[R]_(n, q)) (w : 'M[R]_(d, q)) b :
    scaled_system a gamma *m col_mx w b = primal_rhs Phi Y <->
    (a *: (Phi^T *m Phi) *m w + gamma *: w + Phi^T *m rows_all n b = Phi^T *m Y /\ (ones R n)^T *m Phi *m w + n%:R *: b = (ones R n)^T *m Y).
  Proof.
    rewrite /scaled_system /primal_rhs mul_block_col const_mul mulmxDl -!scalemxAl mul1mx -rows_all_ones !mulmxA. split.
    - by move=> /eq_col_mx.
    - by move=> [-> ->].
  Qed.
  Lemma row_zero (b : 'rV[R]_1) : b *m (ones R n)^T = 0 -> b = 0.
  Proof.
    move=> H. apply/matrixP => i j. have := congr1 (fun A : 'M[R]_(1, n) => A i (Ordinal npos)) H.
    by rewrite !mxE big_ord_recl big_ord0 addr0 !mxE mulr1 !ord1.
  Qed.
  Lemma unscaled_unit gamma : 0 < gamma -> scaled_system 1 gamma \in unitmx.
  Proof.
    move=> Hg. apply: unit_left => v. rewrite -[v]hsubmxK. move: (lsubmx v) (rsubmx v) => x b /scaled_left [H1 H2].
    set u := x *m Phi^T + b *m (ones R n)^T.
    have U1 : u *m Phi = - (gamma *: x).
    { apply/eqP. rewrite -addr_eq0. apply/eqP. rewrite -[RHS]H1 scale1r /u mulmxDl mulmxDr -scalemxAr mulmx1 !mulmxA. by rewrite addrAC. }
    have U2 : u *m ones R n = 0.
    { by rewrite -[RHS]H2 /u mulmxDl -!mulmxA ones_ones mul_const. }
    have U : frobenius2 u = - (gamma * frobenius2 x).
    { rewrite -!row_self {2}/u linearD /= !trmx_mul !trmxK mulmxDr !mulmxA U2 mul0mx addr0 U1 mulNmx -scalemxAl.
      by rewrite [LHS]mxE [X in - X]mxE. }
    have Hu := frobenius2_ge0 u. have Hx := frobenius2_ge0 x.
    have X0 : x = 0.
    { apply: frobenius2_eq0. apply/eqP. rewrite eq_le Hx andbT -(pmulr_rle0 _ Hg). by rewrite U oppr_ge0 in Hu. }
    have U0 : u = 0. { apply: frobenius2_eq0. by rewrite U X0 -row_self mul0mx mxE mulr0 oppr0. }
    rewrite X0 (row_zero (b := b)) ?row_mx0 //. by rewrite -[RHS]U0 /u X0 mul0mx add0r.
  Qed.
  Lemma centered_ones : centered_features Phi <-> (ones R n)^T *m Phi = 0.
  Proof. exact: (sums_ones Phi). Qed.
  Lemma gram_psd : psd (Phi^T *m Phi).
  Proof.
    move=> c. rewrite /qform mulmxA -mulmxA -trmx_mul. have -> : (Phi *m c)^T *m (Phi *m c) = (Phi *m c)^T *m (Phi *m c)^T^T by rewrite trmxK.
    rewrite row_self. exact: frobenius2_ge0.
  Qed.
  Lemma outer_psd : psd (Phi *m Phi^T).
  Proof.
    move=> c. rewrite /qform mulmxA -mulmxA. have -> : Phi^T *m c = (c^T *m Phi)^T by rewrite trmx_mul trmxK.
    rewrite row_self. exact: frobenius2_ge0.
  Qed.
  Lemma centered_unit a gamma : 0 <= a -> 0 < gamma -> centered_features Phi -> scaled_system a gamma \in unitmx.
  Proof.
    move=> Ha Hg /centered_ones Hc. apply: unit_left => v. rewrite -[v]hsubmxK. move: (lsubmx v) (rsubmx v) => x b /scaled_left.
    have Hc' : Phi^T *m ones R n = 0. { by rewrite -[LHS]trmxK trmx_mul trmxK Hc trmx0. }
    rewrite Hc Hc' !mulmx0 addr0 add0r => [[H1 H2]].
    have -> : b = 0. { apply/eqP. by move/eqP: H2; rewrite scaler_eq0 (negbTE nR_neq0). }
    have E : ((x *m (a *: (Phi^T *m Phi) + gamma *: 1%:M)) *m x^T) 0 0 = 0 by rewrite H1 mul0mx mxE.
    rewrite mulmxDr mulmxDl mxE -!scalemxAr mulmx1 -!scalemxAl [X in X + _]mxE [X in _ + X]mxE row_self in E.
    have Hq : 0 <= (x *m (Phi^T *m Phi) *m x^T) 0 0. { have := gram_psd x^T. by rewrite /qform trmxK. }
    have Hf := frobenius2_ge0 x.
    have -> : x = 0.
    { apply: frobenius2_eq0. apply/eqP. rewrite eq_le Hf andbT -(pmulr_rle0 _ Hg).
      move/eqP: E. rewrite addrC addr_eq0 => /eqP ->. by rewrite oppr_le0 mulr_ge0. }
    by rewrite row_mx0.
  Qed.

  (** What the weights of a dual solution satisfy. *)
  Lemma kkt_sum q gamma (Y h : 'M[R]_(n, q)) b : kkt (Phi *m Phi^T) gamma Y h b ->
    (ones R n)^T *m Phi *m (Phi^T *m h) + n%:R *: b = (ones R n)^T *m Y.
  Proof.
    move=> [He /sums_ones Hs].
    have -> : Y = gamma *: h + (Phi *m Phi^T *m h + rows_all n b) by rewrite -He subrK.
    rewrite mulmxDr -scalemxAr Hs scaler0 add0r mulmxDr -rows_all_ones !mulmxA. by rewrite ones_ones const_mul.
  Qed.
  Lemma kkt_features q gamma (Y h : 'M[R]_(n, q)) b : kkt (Phi *m Phi^T) gamma Y h b ->
    (Phi^T *m Phi) *m (Phi^T *m h) + gamma *: (Phi^T *m h) + Phi^T *m rows_all n b = Phi^T *m Y.
  Proof.
    move=> [He _].
    have -> : Y = gamma *: h + (Phi *m Phi^T *m h + rows_all n b) by rewrite -He subrK.
    rewrite !mulmxDr -scalemxAr !mulmxA. by rewrite addrA [X in X + _]addrC.
  Qed.

  (** With centered features: the dual solution for [n] times the regularisation, its
      weights multiplied by [n]. *)
  Lemma centered_primal q gamma (Y h : 'M[R]_(n, q)) b : 0 < gamma -> centered_features Phi ->
    solve_dual (Phi *m Phi^T) (n%:R * gamma) Y = Some (h, b) ->
    solve_primal Phi gamma Y = Some (n%:R *: (Phi^T *m h), b).
  Proof.
    move=> Hg Hc Hd.
    have Hg' : 0 < n%:R * gamma by rewrite mulr_gt0 // ltr0n.
    have [h' [b' [E' Hk]]] := solve_dual_kkt outer_psd Hg' npos Y. rewrite E' in Hd. case: Hd => Eh Eb. subst h' b'.
    rewrite /solve_primal primal_scaled.
    have Hu : scaled_system n%:R^-1 gamma \in unitmx by apply: centered_unit => //; rewrite invr_ge0 ler0n.
    have Heq : scaled_system n%:R^-1 gamma *m col_mx (n%:R *: (Phi^T *m h)) b = primal_rhs Phi Y.
    { apply/scaled_equations. split.
      - rewrite -(kkt_features Hk) -scalemxAl -!scalemxAr !scalerA mulVf ?nR_neq0 // scale1r. by rewrite [gamma * _]mulrC.
      - move/centered_ones: Hc => Hc. rewrite -(kkt_sum Hk) Hc !mul0mx. by []. }
    by rewrite (linsolve_unit Hu Heq) /= col_mxKu col_mxKd.
  Qed.

  (** With the Gram matrix unscaled, the weights are those of the dual solution. *)
  Lemma unscaled_primal q gamma (Y h : 'M[R]_(n, q)) b : 0 < gamma -> solve_dual (Phi *m Phi^T) gamma Y = Some (h, b) ->
    linsolve (scaled_system 1 gamma) (primal_rhs Phi Y) = Some (col_mx (Phi^T *m h) b).
  Proof.
    move=> Hg Hd. have [h' [b' [E' Hk]]] := solve_dual_kkt outer_psd Hg npos Y. rewrite E' in Hd. case: Hd => Eh Eb. subst h' b'.
    apply: (linsolve_unit (unscaled_unit Hg)). apply/scaled_equations. split; last exact: kkt_sum Hk.
    by rewrite scale1r (kkt_features Hk).
  Qed.
End Primal.

Section Single.
  Variable R : rcfType.
  Lemma predict_alike n d q (Phi : 'M[R]_(n, d)) (h : 'M[R]_(n, q)) b m (X : 'M[R]_(m, d)) :
    predict_primal 1 (Phi^T *m h) b X = predict_dual 1 h b (X *m Phi^T).
  Proof. by rewrite /predict_primal /predict_dual sqrtr1 scale1r mulmxA. Qed.

  (** Another scale than one. *)
  Lemma predict_scaled n d q (kappa : R) (Phi : 'M[R]_(n, d)) (h : 'M[R]_(n, q)) b m (X : 'M[R]_(m, d)) :
    predict_primal kappa (Phi^T *m h) b X - predict_dual kappa h b (X *m Phi^T) = (Num.sqrt kappa - 1) *: (X *m Phi^T *m h) /\
    (predict_primal kappa (Phi^T *m h) b X = predict_dual kappa h b (X *m Phi^T) <-> kappa = 1 \/ X *m Phi^T *m h = 0).
  Proof.
    have E : predict_primal kappa (Phi^T *m h) b X - predict_dual kappa h b (X *m Phi^T) = (Num.sqrt kappa - 1) *: (X *m Phi^T *m h).
      by rewrite /predict_primal /predict_dual opprD addrACA subrr addr0 -scalemxAl mulmxA scalerBl scale1r.
    split=> //; split.
    - move/eqP; rewrite -subr_eq0 E scaler_eq0 => /orP[|/eqP ->]; last by right.
      rewrite subr_eq0 => /eqP S; left.
      have K : 0 <= kappa by rewrite Order.TotalTheory.leNgt; apply/negP => K; move: S; rewrite ltr0_sqrtr // => /eqP; rewrite eq_sym oner_eq0.
      by rewrite -(sqr_sqrtr K) S expr1n.
    - move=> H; apply/eqP; rewrite -subr_eq0 E; case: H => [->|->]; last by rewrite scaler0.
      by rewrite sqrtr1 subrr scale0r.
  Qed.

  (** With one point the scaling does nothing. *)
  Lemma single_point d q (Phi : 'M[R]_(1, d)) gamma (Y : 'M[R]_(1, q)) : 0 < gamma ->
    exists h b w, solve_dual (Phi *m Phi^T) gamma Y = Some (h, b) /\ solve_primal Phi gamma Y = Some (w, b) /\
      forall m (X : 'M[R]_(m, d)), predict_primal 1 w b X = predict_dual 1 h b (X *m Phi^T).
  Proof.
    move=> Hg. have [h [b [E _]]] := solve_dual_kkt (@outer_psd _ _ _ Phi) Hg (ltn0Sn 0) Y. exists h, b, (Phi^T *m h). split=> //. split.
    - rewrite /solve_primal primal_scaled invr1 (unscaled_primal (ltn0Sn 0) Hg E) /=. by rewrite col_mxKu col_mxKd.
    - move=> m X. exact: predict_alike.
  Qed.

  (** Constant features: singular for a positive regularisation, as soon as there are two points. *)
  Lemma constant_singular n q (Y : 'M[R]_(n.+2, q)) : solve_primal (ones R n.+2) n.+1%:R Y = None.
  Proof.
    rewrite /solve_primal /linsolve. case: ifP => // HA. exfalso.
    have Z : row_mx 1%:M (- 1%:M) *m primal_system (ones R n.+2) n.+1%:R = 0.
    { rewrite primal_scaled /scaled_system mul_row_block !mul1mx !mulNmx !mul1mx ones_ones.
      have -> : n.+2%:R^-1 *: const_mx n.+2%:R + n.+1%:R *: 1%:M - const_mx n.+2%:R = 0 :> 'M[R]_1.
      { apply/matrixP => i j. rewrite !ord1 !mxE eqxx mulr1 mulVf; last by rewrite pnatr_eq0.
        by rewrite [n.+2%:R]mulrS subrr. }
      by rewrite subrr row_mx0. }
    have := congr1 (mulmx^~ (invmx (primal_system (ones R n.+2) n.+1%:R))) Z. rewrite mulmxK // mul0mx => E.
    have := congr1 (fun A : 'M[R]_(1, 1 + 1) => A 0 (lshift 1 0)) E. rewrite row_mxEl !mxE eqxx => /eqP. by rewrite oner_eq0.
  Qed.
End Single.
