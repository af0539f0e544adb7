(** Least-squares support vector machines with very small and very large bandwidths: proofs. *)
From mathcomp Require Import all_ssreflect all_algebra.
From Verif Require Import NystromM MatrixSpec NystromMProofs KpcaM KpcaSpec LssvmM LssvmSpec LssvmMProofs LssvmLossProofs LssvmMonoProofs LimitSpec LimitProofs PerturbSpec PerturbProofs.
Set Implicit Arguments. Unset Strict Implicit. Unset Printing Implicit Defensive.
Import GRing.Theory Num.Theory Order.POrderTheory Order.TotalTheory.
Local Open Scope ring_scope.

(** Identities. *)
Section Identities.
  Variable F : fieldType.
  Lemma split_mean (y m t g : F) : t + g != 0 -> y - (t * ((t + g)^-1 * (y - m)) + m) = g * ((t + g)^-1 * (y - m)).
  Proof.
    move=> N. have -> : y - (t * ((t + g)^-1 * (y - m)) + m) = (y - m) - t * ((t + g)^-1 * (y - m)) by rewrite opprD addrA addrAC.
    move: (y - m) => Z. have E : Z = (t + g) * ((t + g)^-1 * Z) by rewrite mulVKf.
    rewrite [X in X - _]E -mulrBl. congr (_ * _). by rewrite addrAC subrr add0r.
  Qed.
  Lemma split_off (u v c d : F) : u - c - (v - d) = - (v - u) + (d - c).
  Proof. by rewrite !opprB [d - v]addrC addrACA [- c + d]addrC. Qed.
  Lemma collect (N s2 e2 D g2 : F) :
    2%:R * (N * s2 * (N ^+ 2 * e2 * D * g2 * g2) + N * (4%:R * e2) * (D * g2)) =
    2%:R * N * e2 * D * g2 * (N ^+ 2 * s2 * g2 + 4%:R).
  Proof.
    have -> : N * (4%:R * e2) * (D * g2) = N * e2 * D * g2 * 4%:R by rewrite [RHS]mulrC !mulrA [N * 4%:R]mulrC.
    have -> : N * s2 * (N ^+ 2 * e2 * D * g2 * g2) = N * e2 * D * g2 * (N ^+ 2 * s2 * g2).
      move: (N ^+ 2) => M. rewrite -!mulrA. congr (_ * _).
      rewrite [g2 * (M * _)]mulrCA [D * (M * _)]mulrCA [e2 * (M * _)]mulrCA.
      by rewrite [g2 * (s2 * _)]mulrCA [D * (s2 * _)]mulrCA [e2 * (s2 * _)]mulrCA [RHS]mulrCA.
    move: (N ^+ 2) => M. by rewrite -mulrDr !mulrA.
  Qed.
End Identities.

Section Band.
  Variables (R : rcfType) (n q : nat) (K : 'M[R]_n) (g e p : R) (Y h : 'M[R]_(n, q)) (b : 'rV[R]_q).
  Hypothesis P : psd K.
  Hypothesis npos : (0 < n)%N.
  Hypothesis G : 0 < g.
  Hypothesis p0 : 0 <= p.
  Hypothesis S : solve_dual K g Y = Some (h, b).

  Definition dev : 'M[R]_(n, q) := \matrix_(i, j) (Y i j - mean Y j).
  Definition mu : 'rV[R]_q := \row_j mean Y j.
  Lemma n0 : n%:R != 0 :> R.
  Proof. by rewrite pnatr_eq0 -lt0n. Qed.
  Lemma dev_sum : sums_to_zero dev.
  Proof.
    move=> j. have -> : \sum_i dev i j = \sum_i (Y i j - mean Y j) by apply: eq_bigr => i _; rewrite mxE.
    by rewrite sumrB sumr_const card_ord /mean -[_ *+ n]mulr_natl mulrA mulfV ?n0 // mul1r subrr.
  Qed.
  Lemma limit_kkt (L : 'M[R]_n) t : 0 <= t -> L *m dev = t *: dev -> kkt L g Y ((t + g)^-1 *: dev) mu.
  Proof.
    move=> T E. have N : t + g != 0 by rewrite gt_eqF // ltr_paddl.
    split.
    - rewrite -scalemxAr E !scalerA. apply/matrixP => i j. rewrite !mxE.
      rewrite [_ * t]mulrC -!mulrA. exact: split_mean.
    - move=> j. have -> : \sum_i ((t + g)^-1 *: dev) i j = (t + g)^-1 * \sum_i dev i j by rewrite mulr_sumr; apply: eq_bigr => i _; rewrite !mxE.
      by rewrite dev_sum mulr0.
  Qed.
  Lemma scalar_dev : (p%:M : 'M[R]_n) *m dev = p *: dev.
  Proof. by rewrite mul_scalar_mx. Qed.
  Lemma const_dev : (const_mx p : 'M[R]_n) *m dev = 0 *: dev.
  Proof.
    rewrite scale0r. apply/matrixP => i j. rewrite [LHS]mxE [RHS]mxE.
    have -> : \sum_k (const_mx p : 'M[R]_n) i k * dev k j = p * \sum_k dev k j by rewrite mulr_sumr; apply: eq_bigr => k _; rewrite mxE.
    by rewrite dev_sum mulr0.
  Qed.
  Lemma scalar_psd : psd (p%:M : 'M[R]_n).
  Proof.
    move=> c. rewrite /qform mul_mx_scalar -scalemxAl mxE mulr_ge0 // mxE. apply: sumr_ge0 => i _.
    rewrite mxE -expr2. exact: sqr_ge0.
  Qed.
  Lemma const_psd : psd (const_mx p : 'M[R]_n).
  Proof.
    move=> c. rewrite /qform mxE.
    have -> : \sum_j (c^T *m (const_mx p : 'M[R]_n)) 0 j * c j 0 = p * (\sum_i c i 0) ^+ 2.
      rewrite expr2 mulrCA mulr_sumr mulr_sumr. apply: eq_bigr => j _.
      have -> : (c^T *m (const_mx p : 'M[R]_n)) 0 j = p * \sum_i c i 0 by rewrite mxE mulr_sumr; apply: eq_bigr => i _; rewrite !mxE mulrC.
      by rewrite mulrCA mulrA mulrC mulrA.
    rewrite mulr_ge0 //. exact: sqr_ge0.
  Qed.

  Lemma solved_dist (L : 'M[R]_n) t : psd L -> 0 <= t -> L *m dev = t *: dev -> (forall i j, `|K i j - L i j| <= e) ->
    forall j, \sum_a (h a j - (Y a j - mean Y j) / (t + g)) ^+ 2 <= (n%:R * e) ^+ 2 * (\sum_i (Y i j - mean Y j) ^+ 2) / g ^+ 4.
  Proof.
    move=> PL T E W j. have SL := solve_dual_unique PL G npos (limit_kkt T E).
    have C := solution_change P PL npos G S SL (within_entries W) j (mean Y j).
    move: C. have -> : \sum_a (h a j - ((t + g)^-1 *: dev) a j) ^+ 2 = \sum_a (h a j - (Y a j - mean Y j) / (t + g)) ^+ 2; last by [].
    apply: eq_bigr => a _. by rewrite !mxE [X in _ - X]mulrC.
  Qed.
  Lemma off_close (L : 'M[R]_n) m (k l : 'M[R]_(m, n)) x : (forall i j, `|K i j - L i j| <= e) -> (forall a, `|k x a - l x a| <= e) ->
    forall a, `|off L l x a - off K k x a| <= 2%:R * e.
  Proof.
    move=> W V a. rewrite /off.
    have -> : l x a - n%:R^-1 * (\sum_r L r a) - (k x a - n%:R^-1 * (\sum_r K r a)) =
              - (k x a - l x a) + n%:R^-1 * (\sum_r (K r a - L r a)).
      rewrite sumrB mulrBr. exact: split_off.
    apply: le_trans (ler_norm_add _ _) _. rewrite normrN mulr_natl mulr2n. apply: ler_add; first exact: V.
    have I0 : 0 < n%:R^-1 :> R by rewrite invr_gt0 ltr0n.
    rewrite normrM (gtr0_norm I0) mulrC ler_pdivr_mulr ?ltr0n //.
    apply: le_trans (ler_norm_sum _ _ _) _. apply: le_trans (ler_sum _ (fun r _ => W r a)) _.
    by rewrite sumr_const card_ord mulr_natr.
  Qed.
  Lemma predict_limit (L : 'M[R]_n) t m (k l : 'M[R]_(m, n)) x s : psd L -> 0 <= t -> L *m dev = t *: dev ->
    (forall i j, `|K i j - L i j| <= e) -> (forall a, `|k x a - l x a| <= e) ->
    (forall a, off L l x a = s) ->
    forall j, (predict_dual 1 h b k x j - mean Y j) ^+ 2 <=
      2%:R * n%:R * e ^+ 2 * (\sum_i (Y i j - mean Y j) ^+ 2) / g ^+ 2 * ((n%:R * s / g) ^+ 2 + 4%:R).
  Proof.
    move=> PL T E W V Z j. have SL := solve_dual_unique PL G npos (limit_kkt T E).
    have W' : forall i j, `|L i j - K i j| <= e by move=> i a; rewrite distrC.
    have C := prediction_change PL P npos G SL S (within_entries W') l k x j (mean Y j).
    have M : predict_dual 1 ((t + g)^-1 *: dev) mu l x j = mean Y j.
      rewrite (predict_off npos G PL SL). have -> : \sum_a off L l x a * ((t + g)^-1 *: dev) a j = s * ((t + g)^-1 * \sum_a dev a j).
        rewrite mulr_sumr mulr_sumr. apply: eq_bigr => a _. by rewrite Z [in LHS]mxE.
      by rewrite dev_sum !mulr0 addr0.
    rewrite M in C. rewrite -sqrrN opprB. apply: le_trans C _.
    set D := \sum_i (Y i j - mean Y j) ^+ 2. have D0 : 0 <= D by apply: sumr_ge0 => i _; exact: sqr_ge0.
    have A1 : \sum_a off L l x a ^+ 2 = n%:R * s ^+ 2.
      rewrite (eq_bigr (fun=> s ^+ 2)); last by move=> a _; rewrite Z. by rewrite sumr_const card_ord mulr_natl.
    have A2 : \sum_a (off L l x a - off K k x a) ^+ 2 <= n%:R * (4%:R * e ^+ 2).
      apply: le_trans (_ : _ <= \sum_(a < n) (4%:R * e ^+ 2)) _; last by rewrite sumr_const card_ord -[_ *+ n]mulr_natl.
      apply: ler_sum => a _. have Q := off_close W V a.
      rewrite -(real_normK (num_real _)). have -> : 4%:R * e ^+ 2 = (2%:R * e) ^+ 2 by rewrite exprMn -natrX.
      rewrite ler_sqr ?nnegrE ?normr_ge0 //. exact: le_trans (normr_ge0 _) Q.
    rewrite A1.
    have G0 : g != 0 by rewrite gt_eqF.
    have G2 : 0 <= D / g ^+ 2 by rewrite divr_ge0 // exprn_ge0 // ltW.
    apply: le_trans (_ : _ <= 2%:R * (n%:R * s ^+ 2 * ((n%:R * e) ^+ 2 * D / g ^+ 4) + n%:R * (4%:R * e ^+ 2) * (D / g ^+ 2))) _.
      apply: ler_wpmul2l; first exact: ler0n. apply: ler_add => //. exact: ler_wpmul2r.
    rewrite le_eqVlt; apply/orP; left; apply/eqP.
    have -> : D / g ^+ 2 = D * g^-1 ^+ 2 by rewrite exprVn.
    have F4 : (n%:R * e) ^+ 2 * D / g ^+ 4 = (n%:R * e) ^+ 2 * D * g^-1 ^+ 2 * g^-1 ^+ 2 by rewrite -exprVn -[4%N]/(2 + 2)%N exprD mulrA.
    rewrite F4 -exprVn.
    have F : (n%:R * s / g) ^+ 2 = n%:R ^+ 2 * s ^+ 2 * g^-1 ^+ 2 by rewrite !exprMn.
    rewrite F !exprMn. 
    exact: collect.
  Qed.
End Band.

Section Final.
  Variables (R : rcfType) (n q : nat) (K : 'M[R]_n) (g e p : R) (Y h : 'M[R]_(n, q)) (b : 'rV[R]_q).
  Hypothesis P : psd K.
  Hypothesis npos : (0 < n)%N.
  Hypothesis G : 0 < g.
  Hypothesis p0 : 0 <= p.
  Hypothesis S : solve_dual K g Y = Some (h, b).

  Lemma near_scalar : (forall i j, `|K i j - (if i == j then p else 0)| <= e) -> forall i j, `|K i j - (p%:M : 'M[R]_n) i j| <= e.
  Proof. move=> H i j. rewrite mxE. move: (H i j). by case: eqP. Qed.
  Lemma near_const : (forall i j, `|K i j - p| <= e) -> forall i j, `|K i j - (const_mx p : 'M[R]_n) i j| <= e.
  Proof. move=> H i j. rewrite mxE. exact: H. Qed.

  Theorem small_solution : (forall i j, `|K i j - (if i == j then p else 0)| <= e) ->
    forall j, \sum_a (h a j - (Y a j - mean Y j) / (p + g)) ^+ 2 <= (n%:R * e) ^+ 2 * (\sum_i (Y i j - mean Y j) ^+ 2) / g ^+ 4.
  Proof. move=> H. exact: (solved_dist P npos G S (@scalar_psd R n p p0) p0 (scalar_dev p Y) (near_scalar H)). Qed.
  Theorem large_solution : (forall i j, `|K i j - p| <= e) ->
    forall j, \sum_a (h a j - (Y a j - mean Y j) / g) ^+ 2 <= (n%:R * e) ^+ 2 * (\sum_i (Y i j - mean Y j) ^+ 2) / g ^+ 4.
  Proof.
    move=> H j. have := solved_dist P npos G S (@const_psd R n p p0) (lexx 0) (const_dev p Y npos) (near_const H) j. by rewrite add0r.
  Qed.
  Theorem small_fit : (forall i j, `|K i j - (if i == j then p else 0)| <= e) ->
    forall j, \sum_a (predict_dual 1 h b K a j - (mean Y j + p * ((Y a j - mean Y j) / (p + g)))) ^+ 2 <=
      (n%:R * e) ^+ 2 * (\sum_i (Y i j - mean Y j) ^+ 2) / g ^+ 2.
  Proof.
    move=> H j. have N : p + g != 0 by rewrite gt_eqF // ltr_paddl.
    have [E _] := solved P npos G S.
    have F a : predict_dual 1 h b K a j - (mean Y j + p * ((Y a j - mean Y j) / (p + g))) =
               - (g * (h a j - (Y a j - mean Y j) / (p + g))).
      have E1 := congr1 (fun A : 'M[R]_(n, q) => A a j) E. rewrite !mxE in E1.
      have -> : predict_dual 1 h b K a j = Y a j - g * h a j.
        rewrite -E1 opprB addrC subrK /predict_dual sqrtr1 scale1r !mxE. congr (_ + _).
        by rewrite big_ord_recl big_ord0 addr0 !mxE mul1r.
      have E2 := split_mean (Y a j) (mean Y j) N. rewrite [_^-1 * _]mulrC in E2.
      rewrite mulrBr opprB -E2 [p * _ + _]addrC. by rewrite [LHS]addrAC.
    have -> : \sum_a (predict_dual 1 h b K a j - (mean Y j + p * ((Y a j - mean Y j) / (p + g)))) ^+ 2 =
              g ^+ 2 * \sum_a (h a j - (Y a j - mean Y j) / (p + g)) ^+ 2.
      rewrite mulr_sumr. apply: eq_bigr => a _. by rewrite F sqrrN exprMn.
    have G2 : 0 < g ^+ 2 by rewrite exprn_gt0.
    apply: le_trans (ler_wpmul2l (ltW G2) (small_solution H j)) _.
    rewrite -[4%N]/(2 + 2)%N exprD invfM [X in X <= _]mulrCA mulVKf ?gt_eqF //.
  Qed.
  Theorem small_predictions m (k : 'M[R]_(m, n)) x : (forall i j, `|K i j - (if i == j then p else 0)| <= e) -> (forall a, `|k x a| <= e) ->
    forall j, (predict_dual 1 h b k x j - mean Y j) ^+ 2 <=
      2%:R * n%:R * e ^+ 2 * (\sum_i (Y i j - mean Y j) ^+ 2) / g ^+ 2 * ((p / g) ^+ 2 + 4%:R).
  Proof.
    move=> H Hk j.
    have V : forall a, `|k x a - (0 : 'M[R]_(m, n)) x a| <= e by move=> a; rewrite mxE subr0.
    have Z : forall a, off (p%:M : 'M[R]_n) (0 : 'M[R]_(m, n)) x a = - (n%:R^-1 * p).
      move=> a. rewrite /off mxE sub0r. congr (- (_ * _)). rewrite (bigD1 a) //= big1 ?addr0.
        by rewrite mxE eqxx.
      by move=> i /negbTE Ni; rewrite mxE Ni.
    have C := predict_limit P npos G S (@scalar_psd R n p p0) p0 (scalar_dev p Y) (near_scalar H) V Z j.
    by rewrite mulrN mulVKf ?n0 // mulNr sqrrN in C.
  Qed.
  Theorem large_predictions m (k : 'M[R]_(m, n)) x : (forall i j, `|K i j - p| <= e) -> (forall a, `|k x a - p| <= e) ->
    forall j, (predict_dual 1 h b k x j - mean Y j) ^+ 2 <=
      8%:R * n%:R * e ^+ 2 * (\sum_i (Y i j - mean Y j) ^+ 2) / g ^+ 2.
  Proof.
    move=> H Hk j.
    have V : forall a, `|k x a - (const_mx p : 'M[R]_(m, n)) x a| <= e by move=> a; rewrite mxE.
    have Z : forall a, off (const_mx p : 'M[R]_n) (const_mx p : 'M[R]_(m, n)) x a = 0.
      move=> a. rewrite /off mxE. have -> : \sum_r (const_mx p : 'M[R]_n) r a = n%:R * p.
        by rewrite (eq_bigr (fun=> p)) ?sumr_const ?card_ord ?mulr_natl // => i _; rewrite mxE.
      by rewrite mulrA mulVf ?n0 // mul1r subrr.
    have C := predict_limit P npos G S (@const_psd R n p p0) (lexx 0) (const_dev p Y npos) (near_const H) V Z j.
    rewrite mulr0 mul0r expr0n /= add0r in C. apply: le_trans C _.
    have -> : 8%:R = 4%:R * 2%:R :> R by rewrite -natrM.
    move: (n%:R) (e ^+ 2) (\sum_i _) ((g ^+ 2)^-1) => a c d f. by rewrite [_ * 4%:R]mulrC !mulrA.
  Qed.
End Final.
Section Example_.
  Variable R : rcfType.
  Definition nearly : 'M[R]_2 := 1%:M + const_mx 2%:R^-1.
  Lemma nearly_psd : psd nearly.
  Proof.
    move=> c. rewrite /qform /nearly mulmxDr mulmxDl mxE addr_ge0 //.
      exact: (@scalar_psd R 2 1 ler01).
    apply: const_psd. by rewrite invr_ge0 ler0n.
  Qed.
  Lemma nearly_entries i j : `|nearly i j - (if i == j then 1 else 0)| <= 2%:R^-1.
  Proof.
    rewrite !mxE. have -> : (1 *+ (i == j) + 2%:R^-1 - (if i == j then 1 else 0) : R) = 2%:R^-1.
      case: (i == j); rewrite /= ?mulr1n ?mulr0n; first by rewrite addrAC subrr add0r. by rewrite add0r subr0.
    by rewrite ger0_norm // invr_ge0 ler0n.
  Qed.
End Example_.
