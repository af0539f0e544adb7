(** Ridge regression: proofs. *)
From mathcomp Require Import all_ssreflect all_fingroup all_algebra.
From Verif Require Import RingId RingId3 MatrixSpec KpcaM KpcaSpec KpcaMProofs LssvmM LssvmSpec LssvmMProofs LssvmMonoProofs
  NystromOosProofs NearSpec NearProofs RidgeM RidgeSpec.
Set Implicit Arguments. Unset Strict Implicit. Unset Printing Implicit Defensive.
Import GRing.Theory Num.Theory Order.POrderTheory Order.TotalTheory.
Local Open Scope ring_scope.

Section Unit.
  Variables (R : rcfType) (n : nat) (K : 'M[R]_n) (a : R).
  Hypothesis P : psd K.
  Hypothesis a0 : 0 < a.
  Lemma shifted_unit : K + a *: 1%:M \in unitmx.
  Proof.
    apply: unit_left => v H. have := P v^T. rewrite /qform trmxK.
    have -> : v *m K = - (a *: v).
      apply/eqP. rewrite -subr_eq0 opprK. apply/eqP. by rewrite -[RHS]H mulmxDr -scalemxAr mulmx1.
    rewrite mulNmx mxE -scalemxAl mxE row_self oppr_ge0 pmulr_rle0 // => L.
    apply: frobenius2_eq0. apply/eqP. by rewrite eq_le L frobenius2_ge0.
  Qed.
End Unit.

Section Dual.
  Variables (R : rcfType) (n q : nat) (K : 'M[R]_n) (g : R).
  Hypothesis P : psd K.
  Hypothesis g0 : 0 < g.
  Let i0 : 0 < g^-1. Proof. by rewrite invr_gt0. Qed.

  Lemma ridge_unit : K + g^-1 *: 1%:M \in unitmx.
  Proof. exact: shifted_unit. Qed.
  Lemma ridge_exactly (Y h : 'M[R]_(n, q)) : ridge_dual K g Y = Some h <-> Y - K *m h = g^-1 *: h.
  Proof.
    have M : (K + g^-1 *: 1%:M) *m h = K *m h + g^-1 *: h by rewrite mulmxDl -scalemxAl mul1mx.
    split=> [S | E].
      have := linsolve_eq S. rewrite M => <-. by rewrite addrC addKr.
    apply: linsolve_unit; first exact: ridge_unit. by rewrite M -E addrC subrK.
  Qed.
  Lemma ridge_exists (Y : 'M[R]_(n, q)) : exists h, ridge_dual K g Y = Some h.
  Proof. rewrite /ridge_dual /linsolve ridge_unit. by eexists. Qed.
End Dual.

Section Optimal.
  Variables (R : rcfType) (n d q : nat) (Phi : 'M[R]_(n, d)) (Y : 'M[R]_(n, q)) (a : R).
  Notation ridge_objective := (ridge_objective Phi Y a).
  Lemma ridge_gap (h : 'M[R]_(n, q)) (w : 'M[R]_(d, q)) : Y - Phi *m Phi^T *m h = a *: h ->
    ridge_objective w = ridge_objective (Phi^T *m h) + a * frobenius2 (w - Phi^T *m h) + frobenius2 (Phi *m (w - Phi^T *m h)).
  Proof.
    move=> E. set w0 := Phi^T *m h. rewrite /RidgeSpec.ridge_objective.
    have [e Ew] : exists e, w = w0 + e by exists (w - w0); rewrite addrC subrK.
    have -> : w - w0 = e by rewrite Ew addrC addKr.
    have Er : Y - Phi *m w = a *: h + - (Phi *m e) by rewrite -E Ew mulmxDr /w0 mulmxA opprD addrA.
    have E0 : Y - Phi *m w0 = a *: h by rewrite -E /w0 mulmxA.
    rewrite Er E0 Ew frobenius2_add [frobenius2 (a *: h + _)]frobenius2_add frobenius2N inner_opp inner_scale inner_mul -/w0.
    exact: gap_identity.
  Qed.
  Lemma ridge_best (h : 'M[R]_(n, q)) (w : 'M[R]_(d, q)) : 0 <= a -> Y - Phi *m Phi^T *m h = a *: h ->
    ridge_objective (Phi^T *m h) <= ridge_objective w.
  Proof.
    move=> A E. rewrite (ridge_gap w E) -addrA ler_addl. apply: addr_ge0; last exact: frobenius2_ge0.
    apply: mulr_ge0 => //. exact: frobenius2_ge0.
  Qed.
  Lemma ridge_only (h : 'M[R]_(n, q)) (w : 'M[R]_(d, q)) : 0 < a -> Y - Phi *m Phi^T *m h = a *: h ->
    ridge_objective w <= ridge_objective (Phi^T *m h) -> w = Phi^T *m h.
  Proof.
    move=> A E. rewrite (ridge_gap w E) -addrA ger_addl => L.
    have N1 : 0 <= a * frobenius2 (w - Phi^T *m h) by apply: mulr_ge0; [exact: ltW | exact: frobenius2_ge0].
    have N2 := frobenius2_ge0 (Phi *m (w - Phi^T *m h)).
    have Z : a * frobenius2 (w - Phi^T *m h) = 0.
      apply/eqP. rewrite eq_le N1 andbT. apply: le_trans L. by rewrite ler_addl.
    apply/eqP. rewrite -subr_eq0. apply/eqP. apply: frobenius2_eq0.
    move/eqP: Z. by rewrite mulf_eq0 gt_eqF //= => /eqP.
  Qed.
End Optimal.

Section Inner.
  Variable R : rcfType.
  Lemma inner0l m p (A : 'M[R]_(m, p)) : inner 0 A = 0.
  Proof. by rewrite /inner mul0mx mxtrace0. Qed.
  Lemma inner0r m p (A : 'M[R]_(m, p)) : inner A 0 = 0.
  Proof. by rewrite inner_sym inner0l. Qed.
  Lemma inner_scaler m p a (A B : 'M[R]_(m, p)) : inner A (a *: B) = a * inner A B.
  Proof. by rewrite inner_sym inner_scale inner_sym. Qed.
End Inner.

Section Primal.
  Variables (R : rcfType) (n d q : nat) (Phi : 'M[R]_(n, d)) (Y : 'M[R]_(n, q)) (g : R).
  Hypothesis npos : (0 < n)%N.
  Hypothesis g0 : 0 < g.
  Let nR : 0 < n%:R :> R. Proof. by rewrite ltr0n. Qed.
  Let n0 : n%:R != 0 :> R. Proof. by rewrite gt_eqF. Qed.
  Let i0 : 0 < g^-1. Proof. by rewrite invr_gt0. Qed.

  Lemma moment_psd : psd (second_moment Phi).
  Proof.
    move=> c. rewrite /second_moment /qform -scalemxAr -scalemxAl mxE. apply: mulr_ge0; first by rewrite invr_ge0 ler0n.
    exact: (gram_psd Phi).
  Qed.
  Lemma primal_exactly (w : 'M[R]_(d, q)) :
    ridge_primal Phi g Y = Some w <-> n%:R^-1 *: (Phi^T *m (Phi *m w)) + g^-1 *: w = Phi^T *m Y.
  Proof.
    have M : (second_moment Phi + g^-1 *: 1%:M) *m w = n%:R^-1 *: (Phi^T *m (Phi *m w)) + g^-1 *: w.
      by rewrite mulmxDl -!scalemxAl mul1mx -mulmxA.
    rewrite -M. split=> [|E]; first exact: linsolve_eq.
    apply: linsolve_unit => //. exact: (shifted_unit moment_psd i0).
  Qed.
  (** What the primal system computes: the dual solution of another regularisation, times the
      number of points. *)
  Theorem ridge_primal_dual (h : 'M[R]_(n, q)) : ridge_dual (Phi *m Phi^T) (g / n%:R) Y = Some h ->
    ridge_primal Phi g Y = Some (n%:R *: (Phi^T *m h)).
  Proof.
    move=> S. have gn : 0 < g / n%:R by apply: divr_gt0.
    have E := proj1 (ridge_exactly (@outer_psd _ _ _ Phi) gn Y h) S.
    apply/primal_exactly. rewrite -!scalemxAr scalerA mulVf // scale1r.
    have -> : Y = Phi *m Phi^T *m h + (g / n%:R)^-1 *: h by rewrite -E addrC subrK.
    by rewrite mulmxDr -scalemxAr -!mulmxA scalerA invf_div [g^-1 * _]mulrC.
  Qed.
  Lemma dual_weights (h : 'M[R]_(n, q)) : ridge_dual (Phi *m Phi^T) g Y = Some h ->
    Phi^T *m (Phi *m (Phi^T *m h)) + g^-1 *: (Phi^T *m h) = Phi^T *m Y.
  Proof.
    move=> S. have E := proj1 (ridge_exactly (@outer_psd _ _ _ Phi) g0 Y h) S.
    have -> : Y = Phi *m Phi^T *m h + g^-1 *: h by rewrite -E addrC subrK.
    by rewrite mulmxDr -scalemxAr -!mulmxA.
  Qed.
  Lemma small_weights (a : R) (w : 'M[R]_(d, q)) : 0 <= a -> a *: (Phi^T *m (Phi *m w)) + g^-1 *: w = 0 -> w = 0.
  Proof.
    move=> A H. have Z : inner w (a *: (Phi^T *m (Phi *m w)) + g^-1 *: w) = 0.
      by rewrite H inner0r.
    move: Z. rewrite inner_addr !inner_scaler inner_mul trmxK !inner_self.
    move=> Z. have N1 : 0 <= a * frobenius2 (Phi *m w) by apply: mulr_ge0 => //; exact: frobenius2_ge0.
    have N2 : 0 <= g^-1 * frobenius2 w by apply: mulr_ge0; [exact: ltW | exact: frobenius2_ge0].
    apply: frobenius2_eq0. have : g^-1 * frobenius2 w = 0.
      apply/eqP. rewrite eq_le N2 andbT -Z. by rewrite ler_addr.
    move/eqP. by rewrite mulf_eq0 gt_eqF //= => /eqP.
  Qed.
  Lemma gram_zero (w : 'M[R]_(d, q)) : Phi^T *m (Phi *m w) = 0 -> Phi *m w = 0.
  Proof.
    move=> H. apply: frobenius2_eq0. by rewrite -inner_self inner_mul H inner0l.
  Qed.
  Theorem ridge_same_weights (h : 'M[R]_(n, q)) (w : 'M[R]_(d, q)) : (1 < n)%N ->
    ridge_dual (Phi *m Phi^T) g Y = Some h -> ridge_primal Phi g Y = Some w -> (w = Phi^T *m h <-> Phi^T *m Y = 0).
  Proof.
    move=> n2 D Pr. have Ed := dual_weights D. have Ep := proj1 (primal_exactly w) Pr. split=> [E | Z].
      move: Ep. rewrite E -Ed => H.
      have L : (1 - n%:R^-1) *: (Phi^T *m (Phi *m (Phi^T *m h))) = 0.
        rewrite scalerBl scale1r. apply/eqP. rewrite subr_eq0. apply/eqP. symmetry. exact: (addIr _ H).
      have G : Phi^T *m (Phi *m (Phi^T *m h)) = 0.
        apply/eqP. move/eqP: L. rewrite scaler_eq0 => /orP[|//]. rewrite subr_eq0 => /eqP one.
        have : n%:R = 1 :> R by rewrite -[n%:R]invrK -one invr1.
        move/eqP. rewrite pnatr_eq1 => /eqP n1. exfalso. have := n2. by rewrite (n1 : n = 1%N).
      have F := gram_zero G.
      have W : Phi^T *m h = 0.
        apply: (@small_weights 1); first exact: ler01. rewrite scale1r G add0r.
        apply: frobenius2_eq0. rewrite -inner_self. rewrite inner_scale.
        have -> : inner (Phi^T *m h) (g^-1 *: (Phi^T *m h)) = inner (Phi^T *m h) (Phi^T *m Y).
          by rewrite -Ed G add0r.
        by rewrite [inner _ (Phi^T *m Y)]inner_mul trmxK F inner0l mulr0.
      by rewrite F mulmx0 add0r W scaler0.
    have -> : w = 0.
      apply: (@small_weights n%:R^-1); first by rewrite invr_ge0 ler0n. by rewrite Ep.
    symmetry. apply: (@small_weights 1); first exact: ler01. by rewrite scale1r Ed.
  Qed.
  Theorem ridge_single (h : 'M[R]_(n, q)) : n = 1%N -> ridge_dual (Phi *m Phi^T) g Y = Some h -> ridge_primal Phi g Y = Some (Phi^T *m h).
  Proof.
    move=> n1 S. have one : n%:R = 1 :> R by rewrite n1.
    have := @ridge_primal_dual h. rewrite one divr1 scale1r. exact.
  Qed.
End Primal.

Section Lssvm.
  Variables (R : rcfType) (n q : nat) (K : 'M[R]_n) (g : R).
  Hypothesis P : psd K.
  Hypothesis g0 : 0 < g.
  Hypothesis npos : (0 < n)%N.
  Let i0 : 0 < g^-1. Proof. by rewrite invr_gt0. Qed.

  Theorem lssvm_is_ridge (Y h : 'M[R]_(n, q)) b : solve_dual K g^-1 Y = Some (h, b) <->
    ridge_dual K g (Y - rows_all n b) = Some h /\ sums_to_zero h.
  Proof.
    split=> [S | [S Z]].
      have [E Z] := solved P npos i0 S. split=> //. apply/(ridge_exactly P g0). by rewrite -E opprD addrA addrAC.
    apply: (solve_dual_unique P i0 npos). split=> //. rewrite -(proj1 (ridge_exactly P g0 _ _) S). by rewrite opprD addrA addrAC.
  Qed.
  Lemma rows_zero : rows_all n (0 : 'rV[R]_q) = 0.
  Proof. by apply/matrixP => i j; rewrite !mxE. Qed.
  Theorem centered_no_bias (Y h : 'M[R]_(n, q)) : columns_sum_to_zero K -> sums_to_zero Y ->
    ridge_dual K g Y = Some h -> solve_dual K g^-1 Y = Some (h, 0).
  Proof.
    move=> C S H. apply/lssvm_is_ridge. rewrite rows_zero subr0. split=> // j.
    have E := proj1 (ridge_exactly P g0 _ _) H.
    have : \sum_i (Y - K *m h) i j = \sum_i (g^-1 *: h) i j by rewrite E.
    have -> : \sum_i (Y - K *m h) i j = 0.
      transitivity (\sum_i Y i j - \sum_i (K *m h) i j); first by rewrite -sumrB; apply: eq_bigr => i _; rewrite subE.
      rewrite S sub0r. apply/eqP. rewrite oppr_eq0. apply/eqP.
      transitivity (\sum_i \sum_l K i l * h l j); first by apply: eq_bigr => i _; rewrite mxE.
      rewrite exchange_big /=. apply: big1 => l _. by rewrite -big_distrl /= C mul0r.
    have -> : \sum_i (g^-1 *: h) i j = g^-1 * \sum_i h i j by rewrite big_distrr /=; apply: eq_bigr => i _; rewrite mxE.
    move/eqP. by rewrite eq_sym mulf_eq0 gt_eqF //= => /eqP.
  Qed.
End Lssvm.

Section Contraction.
  Variables (R : rcfType) (n q : nat) (K : 'M[R]_n) (g : R).
  Hypothesis P : psd K.
  Hypothesis g0 : 0 < g.
  Let i0 : 0 < g^-1. Proof. by rewrite invr_gt0. Qed.
  Lemma ridge_col (Y h : 'M[R]_(n, q)) j : ridge_dual K g Y = Some h -> col j Y = K *m col j h + g^-1 *: col j h.
  Proof.
    move=> S. have E := proj1 (ridge_exactly P g0 _ _) S.
    have -> : Y = K *m h + g^-1 *: h by rewrite -E addrC subrK.
    rewrite linearD /= linearZ /=. congr (_ + _). by rewrite !colE mulmxA.
  Qed.
  Lemma ridge_energy (u y : 'cV[R]_n) : y = K *m u + g^-1 *: u -> dv (K *m u) (K *m u) + dv (g^-1 *: u) (g^-1 *: u) <= dv y y.
  Proof.
    move=> ->. rewrite [X in _ <= X]dvDl !dvDr [dv (g^-1 *: u) (K *m u)]dvC.
    have C : 0 <= dv (K *m u) (g^-1 *: u).
      rewrite dvZr dvC. apply: mulr_ge0; first exact: ltW. have := P u. by rewrite /qform /dv mulmxA.
    rewrite -[X in _ <= X]addrA ler_add2l addrA ler_addr. exact: addr_ge0.
  Qed.
  Lemma ridge_norm (u y : 'cV[R]_n) : y = K *m u + g^-1 *: u -> 4%:R * g^-1 * dv u (K *m u) <= dv y y.
  Proof.
    move=> E. have : 0 <= dv (K *m u - g^-1 *: u) (K *m u - g^-1 *: u).
      rewrite dv_sum. apply: sumr_ge0 => i _. by rewrite -expr2 sqr_ge0.
    rewrite E ![dv (_ + _) _]dvDl !dvDr !dvNr !dvNl [dv (g^-1 *: u) (K *m u)]dvC opprK.
    have -> : dv u (K *m u) = dv (K *m u) u by exact: dvC.
    rewrite -mulrA -dvZr.
    set p := dv (K *m u) (K *m u). set z := dv (K *m u) _. set r := dv (g^-1 *: u) _.
    move=> D. by rewrite -subr_ge0 norm_identity.
  Qed.
  Lemma ridge_weights (Y h : 'M[R]_(n, q)) j : ridge_dual K g Y = Some h -> 4%:R * weight_norm2 K h j <= g * \sum_i Y i j ^+ 2.
  Proof.
    move=> S. have := ridge_norm (ridge_col j S). rewrite norm_qform.
    have -> : qform K (col j h) = dv (col j h) (K *m col j h) by rewrite /qform /dv mulmxA.
    have -> : \sum_i Y i j ^+ 2 = dv (col j Y) (col j Y).
      rewrite dv_sum. by apply: eq_bigr => i _; rewrite !mxE expr2.
    rewrite -(ler_pmul2l g0) mulrA [4%:R * _]mulrC mulrA mulfV ?gt_eqF // mul1r. by [].
  Qed.
  Theorem ridge_bounded m (k : 'M[R]_(m, n)) (G : 'M[R]_m) (Y h : 'M[R]_(n, q)) j x : psd (block_mx K k^T k G) ->
    ridge_dual K g Y = Some h -> 4%:R * ridge_predict_dual h k x j ^+ 2 <= g * (\sum_i Y i j ^+ 2) * G x x.
  Proof.
    move=> B S. have := near_bias B 0 h 0 x j. rewrite /predict_dual mulmx0 scaler0 addr0 sqrtr0 mul0r subr0.
    rewrite /ridge_predict_dual => L. have W := ridge_weights j S.
    have G0 : 0 <= G x x by have := G_psd B (delta_mx x 0); rewrite /qform delta_entry.
    apply: (le_trans (y := 4%:R * (weight_norm2 K h j * G x x))).
      by rewrite ler_pmul2l ?ltr0n.
    rewrite mulrA. by apply: ler_wpmul2r.
  Qed.
  Theorem ridge_near m (k : 'M[R]_(m, n)) (G : 'M[R]_m) (Y h : 'M[R]_(n, q)) j x y : psd (block_mx K k^T k G) ->
    ridge_dual K g Y = Some h ->
    4%:R * (ridge_predict_dual h k x j - ridge_predict_dual h k y j) ^+ 2 <= g * (\sum_i Y i j ^+ 2) * kernel_dist2 G x y.
  Proof.
    move=> B S. have := near_predictions B 0 h 0 x y j. rewrite /predict_dual mulmx0 scaler0 addr0.
    rewrite /ridge_predict_dual => L. have W := ridge_weights j S.
    have G0 := dist_ge0 B x y.
    apply: (le_trans (y := 4%:R * (weight_norm2 K h j * kernel_dist2 G x y))).
      by rewrite ler_pmul2l ?ltr0n.
    rewrite mulrA. by apply: ler_wpmul2r.
  Qed.
  Theorem ridge_contracts (Y Y' h h' : 'M[R]_(n, q)) j : ridge_dual K g Y = Some h -> ridge_dual K g Y' = Some h' ->
    \sum_i ((K *m h) i j - (K *m h') i j) ^+ 2 + \sum_i ((Y i j - (K *m h) i j) - (Y' i j - (K *m h') i j)) ^+ 2 <= \sum_i (Y i j - Y' i j) ^+ 2.
  Proof.
    move=> S S'. have E := ridge_col j S. have E' := ridge_col j S'.
    have D : col j Y - col j Y' = K *m (col j h - col j h') + g^-1 *: (col j h - col j h').
      by rewrite E E' mulmxBr scalerBr opprD addrACA.
    have := ridge_energy D. rewrite !dv_sum.
    have KE : forall (A : 'M[R]_(n, q)) i, (K *m col j A) i 0 = (K *m A) i j.
      move=> A i. rewrite !mxE. by apply: eq_bigr => l _; rewrite mxE.
    have -> : \sum_i (K *m (col j h - col j h')) i 0 * (K *m (col j h - col j h')) i 0 = \sum_i ((K *m h) i j - (K *m h') i j) ^+ 2.
      apply: eq_bigr => i _. by rewrite mulmxBr subE !KE expr2.
    have RE : forall i, (g^-1 *: (col j h - col j h')) i 0 = (Y i j - (K *m h) i j) - (Y' i j - (K *m h') i j).
      move=> i. rewrite scalerBr subE. congr (_ - _).
        have := congr1 (fun A : 'cV[R]_n => A i 0) E. rewrite [X in X = _]mxE [X in _ = X]mxE KE => ->. by rewrite addrC addKr.
      have := congr1 (fun A : 'cV[R]_n => A i 0) E'. rewrite [X in X = _]mxE [X in _ = X]mxE KE => ->. by rewrite addrC addKr.
    have -> : \sum_i (g^-1 *: (col j h - col j h')) i 0 * (g^-1 *: (col j h - col j h')) i 0 =
              \sum_i ((Y i j - (K *m h) i j) - (Y' i j - (K *m h') i j)) ^+ 2.
      apply: eq_bigr => i _. by rewrite RE expr2.
    have -> : \sum_i (col j Y - col j Y') i 0 * (col j Y - col j Y') i 0 = \sum_i (Y i j - Y' i j) ^+ 2.
      apply: eq_bigr => i _. by rewrite subE ![col j _ _ _]mxE expr2.
    by [].
  Qed.
End Contraction.
