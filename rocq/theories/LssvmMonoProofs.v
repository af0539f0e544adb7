(** Least-squares support vector machines and the regularisation: proofs. *)
From mathcomp Require Import all_ssreflect all_fingroup all_algebra.
From Verif Require Import RingId MatrixSpec KpcaM KpcaSpec LssvmM LssvmSpec LssvmMProofs LssvmLossProofs.
Set Implicit Arguments. Unset Strict Implicit. Unset Printing Implicit Defensive.
Import GRing.Theory Num.Theory Order.POrderTheory Order.TotalTheory.
Local Open Scope ring_scope.

Section Dot.
  Variables (R : rcfType) (n : nat).
  Definition dv (u v : 'cV[R]_n) : R := (u^T *m v) 0 0.
  Lemma dv_sum u v : dv u v = \sum_i u i 0 * v i 0.
  Proof. rewrite /dv mxE. by apply: eq_bigr => i _; rewrite mxE. Qed.
  Lemma dvC u v : dv u v = dv v u.
  Proof. rewrite !dv_sum. by apply: eq_bigr => i _; rewrite mulrC. Qed.
  Lemma dvDr u v w : dv u (v + w) = dv u v + dv u w.
  Proof. by rewrite /dv mulmxDr mxE. Qed.
  Lemma dvNr u v : dv u (- v) = - dv u v.
  Proof. by rewrite /dv mulmxN mxE. Qed.
  Lemma dvZr u a v : dv u (a *: v) = a * dv u v.
  Proof. by rewrite /dv -scalemxAr mxE. Qed.
  Lemma dvDl u v w : dv (v + w) u = dv v u + dv w u.
  Proof. by rewrite !(dvC _ u) dvDr. Qed.
  Lemma dvNl u v : dv (- v) u = - dv v u.
  Proof. by rewrite !(dvC _ u) dvNr. Qed.
  Lemma dvZl u a v : dv (a *: v) u = a * dv v u.
  Proof. by rewrite !(dvC _ u) dvZr. Qed.
  Lemma dv_ge0 u : 0 <= dv u u.
  Proof. rewrite dv_sum. apply: sumr_ge0 => i _. by rewrite -expr2 sqr_ge0. Qed.
  Lemma dv_rows u (b : 'rV[R]_1) : sums_to_zero u -> dv u (rows_all n b) = 0.
  Proof.
    move=> H. rewrite dv_sum. transitivity (\sum_i u i 0 * b 0 0); first by apply: eq_bigr => i _; rewrite mxE.
    by rewrite -big_distrl /= H mul0r.
  Qed.
  (** Twice the inner product is at most the sum of the squares. *)
  Lemma dv_twice u v : dv u v + dv u v <= dv u u + dv v v.
  Proof.
    have := dv_ge0 (u - v). rewrite dvDl !dvDr !dvNl !dvNr opprK [dv v u]dvC square_identity.
    by rewrite subr_ge0.
  Qed.
End Dot.

Section Two.
  Variables (R : rcfType) (n : nat) (K : 'M[R]_n).
  Hypothesis P : psd K.
  Variables (Y : 'cV[R]_n) (g1 g2 : R) (h1 h2 : 'cV[R]_n) (b1 b2 : 'rV[R]_1).
  Hypothesis H1 : kkt K g1 Y h1 b1.
  Hypothesis H2 : kkt K g2 Y h2 b2.

  Lemma kkt_mul g h b : kkt K g Y h b -> K *m h = Y - g *: h - rows_all n b.
  Proof. case=> <- _. by rewrite opprB addrCA subrr addr0 addrK. Qed.
  Lemma sums_sub : sums_to_zero (h1 - h2).
  Proof.
    case: H1 => _ S1. case: H2 => _ S2. move=> j. transitivity (\sum_i h1 i j - \sum_i h2 i j); last by rewrite S1 S2 subr0.
    rewrite -sumrB. by apply: eq_bigr => i _; rewrite !mxE.
  Qed.
  Lemma cross u : sums_to_zero u -> dv u (K *m (h1 - h2)) = dv u (g2 *: h2) - dv u (g1 *: h1).
  Proof.
    move=> S. rewrite mulmxBr (kkt_mul H1) (kkt_mul H2) dvDr dvNr !dvDr !dvNr !dv_rows // oppr0 !addr0.
    by rewrite opprD opprK addrACA subrr add0r addrC.
  Qed.
  Lemma curvature : 0 <= dv (h1 - h2) (g2 *: h2) - dv (h1 - h2) (g1 *: h1).
  Proof. rewrite -(cross sums_sub) /dv mulmxA. exact: P. Qed.

  Hypothesis G1 : 0 < g1.
  Hypothesis G2 : g1 < g2.

  (** The residuals grow with the regularisation. *)
  Lemma residuals_grow : dv (g1 *: h1) (g1 *: h1) <= dv (g2 *: h2) (g2 *: h2).
  Proof.
    have Gp : 0 < g2 by exact: lt_trans G1 G2.
    set r1 := g1 *: h1. set r2 := g2 *: h2.
    have E1 : h1 = g1^-1 *: r1 by rewrite /r1 scalerA mulVf ?scale1r // gt_eqF.
    have E2 : h2 = g2^-1 *: r2 by rewrite /r2 scalerA mulVf ?scale1r // gt_eqF.
    have C := curvature. rewrite -/r1 -/r2 in C. move: r1 r2 E1 E2 C => r1 r2 E1 E2.
    rewrite {1 2}E1 {1 2}E2 !dvDl !dvNl !dvZl => C.
    have D := dv_twice r1 r2.
    have I := residuals_identity _ g1^-1 g2^-1 (dv r1 r1) (dv r2 r2) (dv r1 r2).
    rewrite -subr_ge0. rewrite -(pmulr_rge0 (x := g1^-1 - g2^-1)); last first.
      by rewrite subr_gt0 ltf_pinv // posrE.
    rewrite I. apply: addr_ge0.
      apply: mulr_ge0; last by rewrite subr_ge0.
      by apply: addr_ge0; rewrite invr_ge0 ltW.
    suff: 0 <= g1^-1 * dv r1 r2 - g1^-1 * dv r1 r1 - (g2^-1 * dv r2 r2 - g2^-1 * dv r1 r2) by move=> T; exact: addr_ge0.
    move: C. rewrite [dv r2 r1]dvC. by rewrite swap_identity.
  Qed.

  (** The squared norm of the weights shrinks. *)
  Lemma weights_shrink : K^T = K -> dv h2 (K *m h2) <= dv h1 (K *m h1).
  Proof.
    move=> Sy. have [d Ed] : exists d, d = h1 - h2 by eexists. have E : h1 = h2 + d by rewrite Ed addrC subrK.
    have C := curvature. have [_ S2] := H2. have X := cross S2. rewrite -Ed in C X.
    have Sx : dv d (K *m h2) = dv h2 (K *m d).
      rewrite dvC /dv trmx_mul Sy. by rewrite mulmxA.
    have -> : dv h1 (K *m h1) = dv h2 (K *m h2) + (dv h2 (K *m d) + dv h2 (K *m d) + dv d (K *m d)).
      by rewrite {1 2}E mulmxDr dvDl !dvDr Sx !addrA.
    rewrite ler_addl. apply: addr_ge0; last by rewrite /dv mulmxA; exact: P.
    suff F : 0 <= dv h2 (K *m d) by exact: addr_ge0.
    rewrite X E !dvZr dvDr mulrDr opprD addrA -mulrBl.
    set a := g2 - g1. have Pa : 0 < a by rewrite subr_gt0.
    rewrite -(pmulr_rge0 (x := a)) // (weights_identity _ a g1 (dv h2 h2) (dv h2 d) (dv d d)).
    have C' : 0 <= a * dv h2 d - g1 * dv d d.
      move: C. by rewrite E !dvZr dvDr mulrDr opprD addrA -mulrBl [dv d h2]dvC.
    apply: addr_ge0; last by apply: mulr_ge0 => //; exact: ltW.
    have := dv_ge0 (a *: h2 - g1 *: d).
    rewrite dvDl !dvDr !dvNl !dvNr !dvZl !dvZr opprK [dv d h2]dvC.
    suff -> : a * (a * dv h2 h2) - a * (g1 * dv h2 d) + (- (g1 * (a * dv h2 d)) + g1 * (g1 * dv d d)) =
       a * a * dv h2 h2 - (a * g1 * dv h2 d + a * g1 * dv h2 d) + g1 * g1 * dv d d by [].
    by rewrite !mulrA [g1 * a]mulrC opprD !addrA.
  Qed.
End Two.

Lemma sub_entry (R : rcfType) m p (A B C : 'M[R]_(m, p)) i j : A - B = C -> A i j - B i j = C i j.
Proof. move=> <-. by rewrite !mxE. Qed.

Section Columns.
  Variables (R : rcfType) (n q : nat) (K : 'M[R]_n).
  Hypothesis P : psd K.
  Hypothesis npos : (0 < n)%N.
  Variable Y : 'M[R]_(n, q).

  Lemma kkt_col g (h : 'M[R]_(n, q)) b j : kkt K g Y h b -> kkt K g (col j Y) (col j h) (col j b).
  Proof.
    case=> H S. split; last by move=> i; rewrite -[RHS](S j); apply: eq_bigr => x _; rewrite mxE.
    have -> : K *m col j h = col j (K *m h) by rewrite !colE mulmxA.
    apply/matrixP => x y. have := congr1 (fun M : 'M[R]_(n, q) => M x j) H. by rewrite !mxE.
  Qed.
  Lemma solved g (h : 'M[R]_(n, q)) b : 0 < g -> solve_dual K g Y = Some (h, b) -> kkt K g Y h b.
  Proof. move=> G. have [h' [b' [-> Hk]]] := solve_dual_kkt P G npos Y. by case=> <- <-. Qed.
  Lemma error_dv g (h : 'M[R]_(n, q)) b j : 0 < g -> solve_dual K g Y = Some (h, b) ->
    \sum_i (Y i j - predict_dual 1 h b K i j) ^+ 2 = dv (g *: col j h) (g *: col j h).
  Proof.
    move=> G S. have := residual_one P G npos S => Er. rewrite dv_sum. apply: eq_bigr => i _.
    by rewrite (sub_entry i j Er) expr2 !mxE.
  Qed.

  Theorem error_monotone g1 g2 (h1 h2 : 'M[R]_(n, q)) b1 b2 : 0 < g1 -> g1 <= g2 ->
    solve_dual K g1 Y = Some (h1, b1) -> solve_dual K g2 Y = Some (h2, b2) ->
    forall j, \sum_i (Y i j - predict_dual 1 h1 b1 K i j) ^+ 2 <= \sum_i (Y i j - predict_dual 1 h2 b2 K i j) ^+ 2.
  Proof.
    move=> G1. rewrite le_eqVlt => /orP[/eqP <-|G2] S1 S2 j; first by move: S2; rewrite S1 => -[<- <-].
    have Gp := lt_trans G1 G2. rewrite (error_dv j G1 S1) (error_dv j Gp S2).
    exact: (residuals_grow P (kkt_col j (solved G1 S1)) (kkt_col j (solved Gp S2)) G1 G2).
  Qed.
  Theorem norm_monotone g1 g2 (h1 h2 : 'M[R]_(n, q)) b1 b2 : K^T = K -> 0 < g1 -> g1 <= g2 ->
    solve_dual K g1 Y = Some (h1, b1) -> solve_dual K g2 Y = Some (h2, b2) ->
    forall j, qform K (col j h2) <= qform K (col j h1).
  Proof.
    move=> Sy G1. rewrite le_eqVlt => /orP[/eqP <-|G2] S1 S2 j; first by move: S2; rewrite S1 => -[<- _].
    have Gp := lt_trans G1 G2.
    have := weights_shrink P (kkt_col j (solved G1 S1)) (kkt_col j (solved Gp S2)) G1 G2 Sy.
    by rewrite /dv /qform !mulmxA.
  Qed.

  (** No constant prediction is better on the training points. *)
  Theorem beats_constants g (h : 'M[R]_(n, q)) b : 0 < g -> solve_dual K g Y = Some (h, b) ->
    forall j (c : R), \sum_i (Y i j - predict_dual 1 h b K i j) ^+ 2 <= \sum_i (Y i j - c) ^+ 2.
  Proof.
    move=> G S j c. rewrite (error_dv j G S). have Hk := kkt_col j (solved G S). case: (Hk) => E Z.
    set r := g *: col j h. pose t := col j Y - rows_all n (c%:M : 'rV[R]_1).
    have -> : \sum_i (Y i j - c) ^+ 2 = dv t t.
      rewrite dv_sum. apply: eq_bigr => i _. by rewrite expr2 !mxE.
    have Zr : sums_to_zero r.
      move=> k. transitivity (g * \sum_i col j h i k); last by rewrite Z mulr0.
      rewrite big_distrr /=. by apply: eq_bigr => i _; rewrite mxE.
    have L : dv r r <= dv r t.
      rewrite -{2}[r]/(g *: col j h) -E dvDr dvNr dvDr dv_rows // addr0 /t dvDr dvNr dv_rows // oppr0 addr0.
      rewrite ler_subl_addr ler_addl /r dvZl. apply: mulr_ge0; first exact: ltW. rewrite /dv mulmxA. exact: P.
    have D := dv_twice r t. rewrite -(ler_add2l (dv r r)). exact: le_trans (ler_add L L) D.
  Qed.

  (** On average the predictions on the training points are right. *)
  Theorem mean_right g (h : 'M[R]_(n, q)) b : 0 < g -> solve_dual K g Y = Some (h, b) ->
    forall j, \sum_i predict_dual 1 h b K i j = \sum_i Y i j.
  Proof.
    move=> G S j. have Er := residual_one P G npos S. have [_ Z] := solved G S.
    apply/eqP. rewrite eq_sym -subr_eq0 -sumrB. apply/eqP.
    transitivity (g * \sum_i h i j); last by rewrite Z mulr0.
    rewrite big_distrr /=. apply: eq_bigr => i _.
    by rewrite (sub_entry i j Er) mxE.
  Qed.
End Columns.

(** * Equivariance *)
Section Equivariance.
  Variables (R : rcfType) (n q : nat) (K : 'M[R]_n) (g : R).

  Lemma solve_dual_some (Y : 'M[R]_(n, q)) : dual_system K g \in unitmx ->
    solve_dual K g Y = Some (usubmx (invmx (dual_system K g) *m dual_rhs Y), dsubmx (invmx (dual_system K g) *m dual_rhs Y)).
  Proof. by move=> U; rewrite /solve_dual /linsolve U. Qed.
  Lemma solve_dual_inv (Y h : 'M[R]_(n, q)) b : solve_dual K g Y = Some (h, b) ->
    dual_system K g \in unitmx /\ dual_system K g *m col_mx h b = dual_rhs Y.
  Proof.
    rewrite /solve_dual /linsolve. case: ifP => // U [<- <-]. split=> //. by rewrite vsubmxK mulKVmx.
  Qed.
  Lemma solve_dual_from (Y h : 'M[R]_(n, q)) b : dual_system K g \in unitmx ->
    dual_system K g *m col_mx h b = dual_rhs Y -> solve_dual K g Y = Some (h, b).
  Proof. move=> U H. by rewrite /solve_dual (linsolve_unit U H) /= col_mxKu col_mxKd. Qed.

  (** The solution is linear in the targets. *)
  Theorem solve_linear (a : R) (Y Y' h h' : 'M[R]_(n, q)) b b' :
    solve_dual K g Y = Some (h, b) -> solve_dual K g Y' = Some (h', b') ->
    solve_dual K g (a *: Y + Y') = Some (a *: h + h', a *: b + b').
  Proof.
    move=> /solve_dual_inv [U H] /solve_dual_inv [_ H']. apply: solve_dual_from U _.
    rewrite -add_col_mx -scale_col_mx mulmxDr -scalemxAr H H' /dual_rhs scale_col_mx add_col_mx scaler0 addr0. by [].
  Qed.
  (** A constant added to the targets goes to the bias. *)
  Theorem solve_shift (Y h : 'M[R]_(n, q)) b c : solve_dual K g Y = Some (h, b) ->
    solve_dual K g (Y + rows_all n c) = Some (h, b + c).
  Proof.
    move=> /solve_dual_inv [U H]. apply: solve_dual_from U _.
    have -> : col_mx h (b + c) = col_mx h b + col_mx 0 c by rewrite add_col_mx addr0.
    rewrite mulmxDr H /dual_system mul_block_col mul0mx !mulmx0 add0r addr0 rows_all_ones /dual_rhs add_col_mx addr0. by [].
  Qed.
End Equivariance.

Section Units.
  Variables (R : rcfType) (n q : nat) (K : 'M[R]_n) (g : R).
  (** Kernel and regularisation in another unit. *)
  Theorem solve_scale (a : R) (Y h : 'M[R]_(n, q)) b : a != 0 -> solve_dual K g Y = Some (h, b) ->
    solve_dual (a *: K) (a * g) Y = Some (a^-1 *: h, b).
  Proof.
    move=> Na /solve_dual_inv [U H].
    have F : forall p (x : 'M[R]_(n, p)) (y : 'M[R]_(1, p)), dual_system (a *: K) (a * g) *m col_mx x y = col_mx ((K + g *: 1%:M) *m (a *: x) + ones R n *m y) (a^-1 *: ((ones R n)^T *m (a *: x))).
      move=> p x y. rewrite /dual_system mul_block_col mul0mx addr0. congr col_mx.
        by rewrite !mulmxDl -!scalemxAl -!scalemxAr mul1mx scalerA [a * g]mulrC.
      by rewrite -scalemxAr scalerA mulVf // scale1r.
    have U' : dual_system (a *: K) (a * g) \in unitmx.
      rewrite -unitmx_tr. apply: unit_left => v Hv.
      have : dual_system (a *: K) (a * g) *m v^T = 0 by rewrite -[LHS]trmxK trmx_mul trmxK Hv trmx0.
      rewrite -[v^T]vsubmxK F. set x := usubmx _. set y := dsubmx _ => T.
      have [T1 T2] : (K + g *: 1%:M) *m (a *: x) + ones R n *m y = 0 /\ a^-1 *: ((ones R n)^T *m (a *: x)) = 0.
        apply: eq_col_mx. by rewrite T col_mx0.
      have Z : dual_system K g *m col_mx (a *: x) y = 0.
        rewrite /dual_system mul_block_col mul0mx addr0 T1.
        have -> : (ones R n)^T *m (a *: x) = 0 by apply/eqP; move/eqP: T2; rewrite scaler_eq0 invr_eq0 (negbTE Na).
        by rewrite col_mx0.
      have : col_mx (a *: x) y = 0 by rewrite -[LHS](mulKmx U) Z mulmx0.
      move=> Z0. have [X0 Y0] : a *: x = 0 /\ y = 0 by apply: eq_col_mx; rewrite Z0 col_mx0.
      apply: trmx_inj. rewrite trmx0 -[v^T]vsubmxK -/x -/y Y0.
      have -> : x = 0 by apply/eqP; move/eqP: X0; rewrite scaler_eq0 (negbTE Na).
      by rewrite col_mx0.
    apply: solve_dual_from U' _. rewrite F scalerA divff // scale1r.
    move: H. rewrite /dual_system /dual_rhs mul_block_col mul0mx addr0 => /eq_col_mx [-> ->]. by rewrite scaler0.
  Qed.
End Units.

Section Permutation.
  Variables (R : rcfType) (n q : nat) (K : 'M[R]_n) (g : R) (p : {perm 'I_n}).

  Lemma perm_orth : (perm_mx p : 'M[R]_n)^T *m perm_mx p = 1%:M.
  Proof. by rewrite tr_perm_mx -perm_mxM mulVg perm_mx1. Qed.
  Lemma perm_orth' : perm_mx p *m (perm_mx p : 'M[R]_n)^T = 1%:M.
  Proof. by rewrite tr_perm_mx -perm_mxM mulgV perm_mx1. Qed.
  Lemma perm_ones : perm_mx p *m ones R n = ones R n.
  Proof. rewrite -row_permE. apply/matrixP => i j. by rewrite !mxE. Qed.

  (** The order of the training points does not matter. *)
  Theorem solve_perm (Y h : 'M[R]_(n, q)) b : solve_dual K g Y = Some (h, b) ->
    solve_dual (perm_mx p *m K *m (perm_mx p)^T) g (perm_mx p *m Y) = Some (perm_mx p *m h, b).
  Proof.
    move=> /solve_dual_inv [U H]. set Q : 'M[R]_n := perm_mx p.
    pose B : 'M[R]_(n + 1) := block_mx Q 0 0 1%:M.
    have UB : B *m B^T = 1%:M.
      by rewrite /B tr_block_mx !trmx0 trmx1 mulmx_block !mulmx0 !mul0mx !mulmx1 !add0r !addr0 perm_orth' -scalar_mx_block.
    have EB : dual_system (Q *m K *m Q^T) g = B *m dual_system K g *m B^T.
      rewrite /B /dual_system tr_block_mx !trmx0 trmx1 !mulmx_block !mulmx0 !mul0mx !mulmx1 !mul1mx !add0r !addr0.
      rewrite mulmxDr mulmxDl -scalemxAr mulmx1 -scalemxAl perm_orth' perm_ones -trmx_mul perm_ones. by [].
    have [UB1 UB2] : B \in unitmx /\ B^T \in unitmx by exact: mulmx1_unit UB.
    apply: solve_dual_from; first by rewrite EB !unitmx_mul U UB1 UB2.
    have C : forall r (x : 'M[R]_(n, r)) y, B *m col_mx x y = col_mx (Q *m x) y.
      by move=> r x y; rewrite /B mul_block_col !mul0mx mul1mx add0r addr0.
    rewrite -C EB -mulmxA [B^T *m _]mulmxA (mulmx1C UB) mul1mx -mulmxA H /dual_rhs C. by [].
  Qed.
  Theorem predict_perm (kappa : R) (h : 'M[R]_(n, q)) b m (k : 'M[R]_(m, n)) :
    predict_dual kappa (perm_mx p *m h) b (k *m (perm_mx p)^T) = predict_dual kappa h b k.
  Proof. by rewrite /predict_dual mulmxA -[k *m _ *m _]mulmxA perm_orth mulmx1. Qed.
End Permutation.

Theorem solve_reorder (R : rcfType) n q (K : 'M[R]_n) g (p : {perm 'I_n}) (Y h : 'M[R]_(n, q)) b :
  solve_dual K g Y = Some (h, b) ->
  solve_dual (row_perm p (col_perm p K)) g (row_perm p Y) = Some (row_perm p h, b).
Proof. move/(solve_perm p). by rewrite tr_perm_mx !row_permE col_permE mulmxA. Qed.
Theorem predict_reorder (R : rcfType) n q (p : {perm 'I_n}) (kappa : R) (h : 'M[R]_(n, q)) b m (k : 'M[R]_(m, n)) :
  predict_dual kappa (row_perm p h) b (col_perm p k) = predict_dual kappa h b k.
Proof. rewrite row_permE col_permE -tr_perm_mx. exact: predict_perm. Qed.
