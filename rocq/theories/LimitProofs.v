(** Strong and weak regularisation of least-squares support vector machines: proofs. *)
From mathcomp Require Import all_ssreflect all_algebra.
From Verif Require Import MatrixSpec KpcaM KpcaSpec LssvmM LssvmSpec LssvmMProofs LssvmLossProofs LssvmMonoProofs LimitSpec.
Set Implicit Arguments. Unset Strict Implicit. Unset Printing Implicit Defensive.
Import GRing.Theory Num.Theory Order.POrderTheory Order.TotalTheory.
Local Open Scope ring_scope.

Section Schwarz.
  Variables (R : rcfType) (n : nat).
  Implicit Types u v : 'cV[R]_n.
  Lemma dv_sqr u : dv u u = \sum_i u i 0 ^+ 2.
  Proof. by rewrite dv_sum; apply: eq_bigr => i _; rewrite expr2. Qed.
  Lemma dv_zero u : dv u u = 0 -> u = 0.
  Proof.
    rewrite dv_sqr => H. apply/matrixP => i j. rewrite ord1 [RHS]mxE.
    have /eqP := psumr_eq0P (fun i _ => sqr_ge0 (u i 0)) H (i := i) isT. by rewrite sqrf_eq0 => /eqP.
  Qed.
  Lemma schwarz u v : dv u v ^+ 2 <= dv u u * dv v v.
  Proof.
    case: (eqVneq (dv v v) 0) => [/dv_zero ->|N].
      have -> : dv u (0 : 'cV[R]_n) = 0 by rewrite /dv mulmx0 mxE. by rewrite expr0n /= mulr_ge0 ?dv_ge0.
    have P : 0 < dv v v by rewrite lt_def N dv_ge0.
    have := dv_ge0 (dv v v *: u - dv u v *: v). rewrite !(dvDl, dvDr) !(dvNl, dvNr) !(dvZl, dvZr) [dv v u]dvC.
    move: (dv v v) (dv u v) (dv u u) P => a b c P.
    by rewrite opprK [a * b]mulrC addNr addr0 -mulrBr pmulr_rge0 // subr_ge0 expr2 [c * a]mulrC.
  Qed.
End Schwarz.

Section One.
  Variables (R : rcfType) (n : nat) (K : 'M[R]_n) (lam g : R) (D h : 'cV[R]_n) (b : 'rV[R]_1).
  Hypothesis L : at_least lam K.
  Hypothesis L0 : 0 <= lam.
  Hypothesis G : 0 < g.
  Hypothesis H : kkt K g D h b.
  Lemma small c : (lam + g) ^+ 2 * dv h h <= \sum_i (D i 0 - c) ^+ 2.
  Proof.
    case: H => E Z. pose t := D - rows_all n (c%:M : 'rV[R]_1).
    have -> : \sum_i (D i 0 - c) ^+ 2 = dv t t.
      rewrite dv_sum. apply: eq_bigr => i _. by rewrite expr2 !mxE.
    set a := lam + g. have A : 0 < a by apply: ltr_paddl.
    have HD : a * dv h h <= dv h t.
      have -> : dv h t = dv h (K *m h) + g * dv h h.
        rewrite /t dvDr dvNr dv_rows // subr0 -dvZr -E dvDr dvNr dvDr dv_rows // addr0 addrCA subrr addr0. by [].
      rewrite mulrDl ler_add2r dv_sqr. have := L h. by rewrite /qform /dv mulmxA.
    have T := dv_twice (a *: h) t. rewrite -(ler_add2l (a ^+ 2 * dv h h)).
    have E2 : dv (a *: h) (a *: h) = a ^+ 2 * dv h h by rewrite dvZl dvZr mulrA expr2.
    rewrite E2 dvZl in T. apply: le_trans T.
    have M : a ^+ 2 * dv h h <= a * dv h t by rewrite expr2 -mulrA ler_pmul2l.
    by apply: ler_add.
  Qed.
  Lemma spread (u : 'cV[R]_n) c : (lam + g) ^+ 2 * dv u h ^+ 2 <= dv u u * \sum_i (D i 0 - c) ^+ 2.
  Proof.
    have A : 0 < lam + g by apply: ltr_paddl.
    have A2 : 0 < (lam + g) ^+ 2 by rewrite exprn_gt0.
    apply: le_trans (ler_wpmul2l (ltW A2) (schwarz u h)) _. rewrite mulrCA. apply: ler_wpmul2l; [exact: dv_ge0 | exact: small].
  Qed.
End One.

Section Limits.
  Variables (R : rcfType) (n q : nat) (K : 'M[R]_n) (lam g : R) (Y h : 'M[R]_(n, q)) (b : 'rV[R]_q).
  Hypothesis L : at_least lam K.
  Hypothesis L0 : 0 <= lam.
  Hypothesis npos : (0 < n)%N.
  Hypothesis G : 0 < g.
  Hypothesis S : solve_dual K g Y = Some (h, b).
  Lemma at_least_psd : psd K.
  Proof. move=> c. apply: le_trans (L c). apply: mulr_ge0 => //. by apply: sumr_ge0 => i _; exact: sqr_ge0. Qed.
  Let P := at_least_psd.
  Lemma lg_gt0 : 0 < lam + g.
  Proof. exact: ltr_paddl. Qed.
  Lemma column_sum j c : \sum_i (col j Y i 0 - c) ^+ 2 = \sum_i (Y i j - c) ^+ 2.
  Proof. by apply: eq_bigr => i _; rewrite mxE. Qed.
  Theorem interpolates j c : \sum_i (Y i j - predict_dual 1 h b K i j) ^+ 2 <= (g / (lam + g)) ^+ 2 * \sum_i (Y i j - c) ^+ 2.
  Proof.
    rewrite (error_dv P npos j G S) dvZl dvZr mulrA -expr2 expr_div_n -[X in _ <= X]mulrA. apply: ler_wpmul2l; first exact: sqr_ge0.
    rewrite [X in _ <= X]mulrC ler_pdivl_mulr ?exprn_gt0 ?lg_gt0 // [X in X <= _]mulrC -column_sum. exact: (small L L0 G (kkt_col j (solved P npos G S))).
  Qed.
  (** A combination of the kernel values of a point. *)
  Lemma combination (u : 'cV[R]_n) j c : (\sum_a u a 0 * h a j) ^+ 2 <= (\sum_a u a 0 ^+ 2) * (\sum_i (Y i j - c) ^+ 2) / (lam + g) ^+ 2.
  Proof.
    rewrite ler_pdivl_mulr ?exprn_gt0 ?lg_gt0 // [X in X <= _]mulrC -column_sum -dv_sqr.
    have -> : \sum_a u a 0 * h a j = dv u (col j h) by rewrite dv_sum; apply: eq_bigr => a _; rewrite [col _ _ _ _]mxE.
    exact: (spread L L0 G (kkt_col j (solved P npos G S))).
  Qed.
  Lemma predict_entry p (k : 'M[R]_(p, n)) x j : predict_dual 1 h b k x j = \sum_a k x a * h a j + b 0 j.
  Proof. by rewrite /predict_dual sqrtr1 scale1r rows_all_ones [LHS]mxE [X in X + _]mxE [X in _ + X]mxE. Qed.
  Theorem smooth p (k : 'M[R]_(p, n)) x y j c :
    (predict_dual 1 h b k x j - predict_dual 1 h b k y j) ^+ 2 <= (\sum_a (k x a - k y a) ^+ 2) * (\sum_i (Y i j - c) ^+ 2) / (lam + g) ^+ 2.
  Proof.
    rewrite !predict_entry opprD addrACA subrr addr0 -sumrB.
    have := combination (\col_a (k x a - k y a)) j c.
    have -> : \sum_a (\col_a (k x a - k y a)) a 0 * h a j = \sum_a (k x a * h a j - k y a * h a j).
      by apply: eq_bigr => a _; rewrite mxE mulrBl.
    have -> : \sum_a (\col_a (k x a - k y a)) a 0 ^+ 2 = \sum_a (k x a - k y a) ^+ 2 by apply: eq_bigr => a _; rewrite mxE.
    by [].
  Qed.
  Lemma bias_mean j : b 0 j = mean Y j - \sum_a (n%:R^-1 * \sum_r K r a) * h a j.
  Proof.
    have N : n%:R != 0 :> R by rewrite pnatr_eq0 -lt0n.
    have := mean_right P npos G S j. rewrite /mean => <-.
    rewrite (eq_bigr (fun i => \sum_a K i a * h a j + b 0 j)); last by move=> i _; rewrite predict_entry.
    rewrite big_split /= sumr_const card_ord mulrDr -[b 0 j *+ n]mulr_natl mulrA mulVf // mul1r exchange_big /=.
    have -> : \sum_a (n%:R^-1 * \sum_r K r a) * h a j = n%:R^-1 * \sum_a \sum_i K i a * h a j.
      rewrite mulr_sumr; apply: eq_bigr => a _. by rewrite -mulrA mulr_suml.
    by rewrite addrAC subrr add0r.
  Qed.
  Theorem flat p (k : 'M[R]_(p, n)) x j c :
    (predict_dual 1 h b k x j - mean Y j) ^+ 2 <=
    (\sum_a (k x a - n%:R^-1 * \sum_r K r a) ^+ 2) * (\sum_i (Y i j - c) ^+ 2) / (lam + g) ^+ 2.
  Proof.
    rewrite predict_entry bias_mean addrCA [mean Y j + _]addrC addrK -sumrB.
    have := combination (\col_a (k x a - n%:R^-1 * \sum_r K r a)) j c.
    have -> : \sum_a (\col_a (k x a - n%:R^-1 * \sum_r K r a)) a 0 * h a j = \sum_a (k x a * h a j - (n%:R^-1 * \sum_r K r a) * h a j).
      by apply: eq_bigr => a _; rewrite mxE mulrBl.
    have -> : \sum_a (\col_a (k x a - n%:R^-1 * \sum_r K r a)) a 0 ^+ 2 = \sum_a (k x a - n%:R^-1 * \sum_r K r a) ^+ 2 by apply: eq_bigr => a _; rewrite mxE.
    by [].
  Qed.
End Limits.

Section Twice.
  Variables (R : rcfType) (n q : nat) (K : 'M[R]_n) (h : 'M[R]_(n, q)) (b : 'rV[R]_q).
  Lemma halves (x y f : R) : (x - y) ^+ 2 / 2%:R <= (x - f) ^+ 2 + (y - f) ^+ 2.
  Proof.
    rewrite ler_pdivr_mulr ?ltr0n // -subr_ge0.
    have -> : x - y = (x - f) - (y - f) by rewrite opprB addrA subrK.
    move: (x - f) (y - f) => u v. have -> : (u ^+ 2 + v ^+ 2) * 2%:R - (u - v) ^+ 2 = (u + v) ^+ 2; last exact: sqr_ge0.
    rewrite sqrrB sqrrD mulr_natr mulr2n. move: (u ^+ 2) (v ^+ 2) (u * v *+ 2) => a c d.
    have -> : a + c + (a + c) - (a - d + c) = a + c + d by rewrite [a - d + c]addrAC opprD opprK addrA addrK.
    by rewrite addrAC.
  Qed.
  Theorem twice (Y : 'M[R]_(n, q)) i r j : row i K = row r K ->
    (Y i j - Y r j) ^+ 2 / 2%:R <= (Y i j - predict_dual 1 h b K i j) ^+ 2 + (Y r j - predict_dual 1 h b K r j) ^+ 2.
  Proof.
    move=> E. have -> : predict_dual 1 h b K r j = predict_dual 1 h b K i j; last exact: halves.
    rewrite !predict_entry; congr (_ + _). apply: eq_bigr => a _. by have := congr1 (fun u : 'rV[R]_n => u 0 a) E; rewrite !mxE => ->.
  Qed.
End Twice.
