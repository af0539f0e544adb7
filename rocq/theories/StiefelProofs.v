(** Proofs about the steps on the Stiefel manifold. *)
From mathcomp Require Import all_ssreflect all_algebra ssrAC.
From Verif Require Import Stiefel StiefelSpec.
Set Implicit Arguments. Unset Strict Implicit. Unset Printing Implicit Defensive.
Import GRing.Theory Num.Theory Order.TTheory.
Local Open Scope ring_scope.

Section Proofs.
  Variable R : rcfType.

  Lemma two_neq0 : (2%:R : R) != 0. Proof. by rewrite pnatr_eq0. Qed.
  Lemma half_half (V : lmodType R) (x : V) : 2%:R^-1 *: (x + x) = x.
  Proof. by rewrite -mulr2n -scaler_nat scalerA mulVf ?two_neq0 // scale1r. Qed.
  Lemma double_eq0 (V : lmodType R) (x : V) : x + x = 0 -> x = 0.
  Proof. by move=> H; rewrite -(half_half x) H scaler0. Qed.
  Lemma eps_gt0 : 0 < eps R.
  Proof. by rewrite /eps invr_gt0 exprn_gt0 // ltr0n. Qed.

  (** *** Directions *)
  Lemma direction_skew m n (v : 'M[R]_(n, m)) (x : 'M[R]_(m, n)) : skew (direction v x).
  Proof.
    rewrite /skew /direction /=. move: (v *m x - _) => h.
    by rewrite linearB /= trmxK opprB. 
  Qed.
  Lemma scale_skew n (w : 'M[R]_n) c : skew w -> skew (c *: w).
  Proof. by rewrite /skew linearZ /= => ->; rewrite scalerN. Qed.

  (** *** The exact update *)
  Lemma gram_diag m n (p : 'M[R]_(m, n)) i : gram p i i = \sum_j p i j ^+ 2.
  Proof. by rewrite /gram mxE; apply: eq_bigr => j _; rewrite mxE expr2. Qed.
  Lemma gram_eq0 m n (p : 'M[R]_(m, n)) : gram p = 0 -> p = 0.
  Proof.
    move=> H; apply/matrixP => i j; rewrite mxE.
    have : gram p i i = 0 by rewrite H mxE.
    rewrite gram_diag => /eqP; rewrite psumr_eq0; last by move=> k _; exact: sqr_ge0.
    by move=> /allP /(_ j); rewrite mem_index_enum => /(_ isT); rewrite /= sqrf_eq0 => /eqP.
  Qed.
  Lemma skew_unit n (a : 'M[R]_n) : skew a -> 1%:M - a \in unitmx.
  Proof.
    move=> S; rewrite -row_free_unit -kermx_eq0; apply/eqP; apply: gram_eq0.
    set K := kermx _. have H : K *m (1%:M - a) = 0 by exact: mulmx_ker.
    have E : K = K *m a by apply/eqP; rewrite -subr_eq0; apply/eqP; rewrite -{1}(mulmx1 K) -mulmxBr.
    apply: double_eq0. rewrite /gram {1}E.
    have -> : K *m K^T = - (K *m a *m K^T).
      by rewrite {2}E trmx_mul S mulNmx mulmxN mulmxA.
    by rewrite subrr.
  Qed.
  Section Exact.
    Variables (n m : nat) (x : 'M[R]_(n, m)) (w : 'M[R]_n) (t : R).
    Let a := (t / 2%:R) *: w.
    Lemma update_eq y : cayley_update x w t y <-> (1%:M - a) *m y = (1%:M + a) *m x.
    Proof.
      rewrite /cayley_update scalemxAl -/a mulmxDr mulmxBl mulmxDl !mul1mx addrA. split=> H.
      - by apply/eqP; rewrite subr_eq {1}H.
      - by apply/eqP; rewrite -subr_eq H.
    Qed.
    Lemma update_exists : skew w -> exists y, cayley_update x w t y /\ forall y', cayley_update x w t y' -> y' = y.
    Proof.
      move=> S; have U : 1%:M - a \in unitmx by apply: skew_unit; apply: scale_skew.
      exists (invmx (1%:M - a) *m ((1%:M + a) *m x)); split.
      - by apply/update_eq; rewrite mulmxA mulmxV // mul1mx.
      - by move=> y' /update_eq <-; rewrite mulmxA mulVmx // mul1mx.
    Qed.
    Lemma update_gram y : skew w -> cayley_update x w t y -> y^T *m y = x^T *m x.
    Proof.
      move=> S; rewrite /cayley_update scalemxAl -/a => E.
      have Sa : skew a by apply: scale_skew.
      set s := x + y in E. set d := y - x.
      have D : d = a *m s by rewrite /d E addrAC subrr add0r.
      have Z : d^T *m s + s^T *m d = 0.
        by rewrite D trmx_mul Sa mulmxN mulNmx mulmxA addNr.
      apply/eqP; rewrite -subr_eq0; apply/eqP; apply: double_eq0.
      have Td : d^T = y^T - x^T by rewrite /d linearB.
      have Ts : s^T = x^T + y^T by rewrite /s linearD.
      rewrite -Z Td Ts /d /s [in RHS]mulmxDr [in RHS]mulmxBr !mulmxBl !mulmxDl.
      rewrite !opprD !addrA.
      by rewrite [RHS](ACl (1*8*(4*5)*3*2*6*7)) /= subrr add0r addNr add0r.
    Qed.
  End Exact.

  (** *** Norms *)
  Lemma norm_one_ge n m (w : 'M[R]_(n, m)) j : \sum_i `|w i j| <= norm_one w.
  Proof.
    rewrite /norm_one; have: j \in index_enum (ordinal_finType m) by rewrite mem_index_enum.
    elim: (index_enum _) => // k s IH; rewrite inE big_cons le_maxr => /orP [/eqP <-|H]; first by rewrite lexx.
    by rewrite (IH H) orbT.
  Qed.
  Lemma norm_one_ge0 n m (w : 'M[R]_(n, m)) : 0 <= norm_one w.
  Proof.
    rewrite /norm_one; elim/big_rec: _ => // j x _ H. by rewrite le_maxr H orbT.
  Qed.
  Lemma norm_one_le n m (w : 'M[R]_(n, m)) c : 0 <= c -> (forall j, \sum_i `|w i j| <= c) -> norm_one w <= c.
  Proof. by move=> C H; rewrite /norm_one; elim/big_rec: _ => // j x _ X; rewrite le_maxl H X. Qed.
  Lemma norm_oneZ n m (w : 'M[R]_(n, m)) c : norm_one (c *: w) <= `|c| * norm_one w.
  Proof.
    apply: norm_one_le => [|j]; first by rewrite mulr_ge0 ?normr_ge0 ?norm_one_ge0.
    rewrite (eq_bigr (fun i => `|c| * `|w i j|)) => [|i _]; last by rewrite mxE normrM.
    by rewrite -mulr_sumr ler_wpmul2l ?normr_ge0 ?norm_one_ge.
  Qed.
  Lemma norm_oneM n m k (w : 'M[R]_(n, m)) (z : 'M[R]_(m, k)) : norm_one (w *m z) <= norm_one w * norm_one z.
  Proof.
    apply: norm_one_le => [|j]; first by rewrite mulr_ge0 ?norm_one_ge0.
    apply: (@le_trans _ _ (\sum_i \sum_l `|w i l| * `|z l j|)).
      apply: ler_sum => i _; rewrite mxE; apply: le_trans (ler_norm_sum _ _ _) _.
      by apply: ler_sum => l _; rewrite normrM.
    rewrite exchange_big /=.
    apply: (@le_trans _ _ (\sum_l norm_one w * `|z l j|)).
      by apply: ler_sum => l _; rewrite -mulr_suml ler_wpmul2r ?normr_ge0 ?norm_one_ge.
    by rewrite -mulr_sumr ler_wpmul2l ?norm_one_ge0 ?norm_one_ge.
  Qed.

  (** *** The iterations *)
  Section Iterations.
    Variables (n m : nat) (x : 'M[R]_(n, m)) (w : 'M[R]_n) (t : R) (y : 'M[R]_(n, m)).
    Hypothesis Hy : cayley_update x w t y.
    Hypothesis Ht : `|t| * norm_one w <= 1.
    Lemma iter_error z : cayley_iter x w t z - y = (t / 2%:R) *: (w *m (z - y)).
    Proof.
      rewrite /cayley_iter -scalemxAr scalerA {1}Hy opprD addrACA subrr add0r -scalerBr -mulmxBr.
      by rewrite opprD addrACA subrr add0r.
    Qed.
    Lemma iter_contract z : norm_one (cayley_iter x w t z - y) <= 2%:R^-1 * norm_one (z - y).
    Proof.
      rewrite iter_error; apply: le_trans (norm_oneZ _ _) _.
      apply: (@le_trans _ _ (`|t / 2%:R| * (norm_one w * norm_one (z - y)))).
        by rewrite ler_wpmul2l ?normr_ge0 ?norm_oneM.
      rewrite mulrA ler_wpmul2r ?norm_one_ge0 //.
      rewrite normrM [`|2%:R^-1|]ger0_norm ?invr_ge0 ?ler0n // mulrAC -[X in _ <= X]mul1r.
      by rewrite ler_wpmul2r ?invr_ge0 ?ler0n.
    Qed.
    Lemma iter_bound k z : norm_one (iter k (cayley_iter x w t) z - y) <= 2%:R^-1 ^+ k * norm_one (z - y).
    Proof.
      elim: k => [|k IH]; first by rewrite expr0 mul1r.
      rewrite iterS exprS -mulrA; apply: le_trans (iter_contract _) _.
      by rewrite ler_wpmul2l ?invr_ge0 ?ler0n.
    Qed.
    Lemma loop_bound tan : norm_one ((cayley_loop x w tan t)^T - y) <= 2%:R^-1 ^+ 20 * norm_one (x + t *: tan - y).
    Proof. by rewrite /cayley_loop trmxK; apply: iter_bound. Qed.
  End Iterations.
  Lemma step_size_small n (w : 'M[R]_n) lr : 0 <= lr -> `|step_size w lr| * norm_one w <= 1.
  Proof.
    move=> L; have N : 0 <= norm_one w by exact: norm_one_ge0.
    have P : 0 < norm_one w + eps R by rewrite ltr_paddl // eps_gt0.
    rewrite /step_size mulVf ?two_neq0 // mul1r ger0_norm; last first.
      by rewrite le_minr L invr_ge0 ltW.
    apply: (@le_trans _ _ ((norm_one w + eps R)^-1 * norm_one w)).
      by rewrite ler_wpmul2r // le_minl lexx.
    by rewrite mulrC ler_pdivr_mulr // mul1r ler_addl ltW // eps_gt0.
  Qed.
  Lemma step_size_ge0 n (w : 'M[R]_n) lr : 0 <= lr -> 0 <= step_size w lr <= lr.
  Proof.
    move=> L; have P : 0 < norm_one w + eps R by rewrite ltr_paddl ?eps_gt0 ?norm_one_ge0.
    rewrite /step_size mulVf ?two_neq0 // mul1r le_minr L invr_ge0 (ltW P) /=.
    by rewrite le_minl lexx orbT.
  Qed.

  (** The two optimisers. *)
  Lemma sgd_close m n (o : sgd_options R) qr retract (p : 'M[R]_(m, n)) buffer g : 0 <= o_lr o ->
    let x := start qr retract p in
    let v := o_momentum o *: odflt 0 buffer - g^T in
    let w := direction v x in
    let t := step_size w (o_lr o) in
    exists y, [/\ skew w, 0 <= t <= o_lr o, cayley_update x^T w t y, gram y^T = gram x &
      norm_one ((sgd_stiefel o qr retract (p, buffer) g).1^T - y) <= 2%:R^-1 ^+ 20 * norm_one (x^T + t *: v - y)].
  Proof.
    move=> L x v w t. have S : skew w by exact: direction_skew.
    have [y [Y _]] := update_exists x^T t S.
    exists y; split=> //.
    - exact: step_size_ge0.
    - by rewrite /gram trmxK (update_gram S Y) trmxK.
    - by apply: loop_bound => //; exact: step_size_small.
  Qed.
  Lemma adam_close m n (o : adam_options R) qr retract (p : 'M[R]_(m, n)) os g : 0 <= a_lr o ->
    let x := start qr retract p in
    let s := odflt (adam_init m n o) os in
    let w := adam_direction o x s g in
    let t := step_size w (a_lr o) in
    exists y, [/\ skew w, 0 <= t <= a_lr o, cayley_update x^T w (- t) y, gram y^T = gram x &
      norm_one ((adam_stiefel o qr retract (p, os) g).1^T - y)
        <= 2%:R^-1 ^+ 20 * norm_one (x^T - t *: adam_first o s g - y)].
  Proof.
    move=> L x s w t. have S : skew w by apply: scale_skew; exact: direction_skew.
    have [y [Y _]] := update_exists x^T (- t) S.
    exists y; split=> //.
    - exact: step_size_ge0.
    - by rewrite /gram trmxK (update_gram S Y) trmxK.
    - rewrite -scaleNr. by apply: loop_bound => //; rewrite normrN; exact: step_size_small.
  Qed.

  (** *** Descent *)
  Lemma direction_linear m n (x : 'M[R]_(m, n)) c v : direction (c *: v) x = c *: direction v x.
  Proof.
    rewrite /direction -!scalemxAl -!scalemxAr.
    rewrite [2%:R^-1 *: (c *: _)]scalerA mulrC -scalerA -scalerBr.
    move: (v *m x - _) => h. by rewrite linearZ /= scalerBr.
  Qed.
  Section Descent.
    Variables (m n : nat) (x : 'M[R]_(m, n)) (c : R).
    Hypothesis G : gram x = c%:M.
    Lemma xxT : x *m x^T = c%:M. Proof. exact: G. Qed.
    Lemma velocity v : direction v x *m x^T
      = c *: v - (c / 2%:R) *: (x^T *m (x *m v)) - (1 - c / 2%:R) *: (x^T *m (x *m v)^T).
    Proof.
      rewrite /direction mulmxBl.
      have -> : (v *m x - 2%:R^-1 *: (x^T *m (x *m (v *m x)))) *m x^T = c *: v - (c / 2%:R) *: (x^T *m (x *m v)).
        rewrite mulmxBl -!scalemxAl -!mulmxA xxT. rewrite !mul_mx_scalar.
        by rewrite -!scalemxAr scalerA [2%:R^-1 * c]mulrC.
      have -> : (v *m x - 2%:R^-1 *: (x^T *m (x *m (v *m x))))^T *m x^T = (1 - c / 2%:R) *: (x^T *m (x *m v)^T).
        rewrite linearB /= linearZ /= !trmx_mul trmxK mulmxBl -!scalemxAl -!mulmxA xxT !mul_mx_scalar.
        rewrite -!scalemxAr scalerA scalerBl scale1r. by rewrite [2%:R^-1 * c]mulrC.
      by [].
    Qed.
    Lemma trace_sq k l (a : 'M[R]_(k, l)) : \tr (a^T *m a) = \sum_i \sum_j a i j ^+ 2.
    Proof.
      rewrite /mxtrace exchange_big /=; apply: eq_bigr => i _; rewrite mxE.
      by apply: eq_bigr => j _; rewrite mxE expr2.
    Qed.
    Lemma trace_sq_ge0 k l (a : 'M[R]_(k, l)) : 0 <= \tr (a^T *m a).
    Proof. by rewrite trace_sq; apply: sumr_ge0 => i _; apply: sumr_ge0 => j _; exact: sqr_ge0. Qed.
    Lemma trace_sq_eq0 k l (a : 'M[R]_(k, l)) : \tr (a^T *m a) = 0 -> a = 0.
    Proof.
      rewrite trace_sq => /eqP; rewrite psumr_eq0 => [/allP H|i _]; last by apply: sumr_ge0 => j _; exact: sqr_ge0.
      apply/matrixP => i j; rewrite mxE. have := H i (mem_index_enum _); rewrite /= psumr_eq0; last by move=> k' _; exact: sqr_ge0.
      by move/allP => /(_ j (mem_index_enum _)) /=; rewrite sqrf_eq0 => /eqP.
    Qed.
    Hypothesis C0 : c != 0.
    Lemma descent_identity v : \tr (v^T *m (direction v x *m x^T))
      = c * \tr ((v - c^-1 *: (x^T *m (x *m v)))^T *m (v - c^-1 *: (x^T *m (x *m v))))
        + (1 - c / 2%:R) / 2%:R * \tr ((x *m v - (x *m v)^T)^T *m (x *m v - (x *m v)^T)).
    Proof.
      rewrite velocity. set b := x *m v.
      have bT : v^T *m x^T = b^T by rewrite /b trmx_mul.
      have -> : v^T *m (c *: v - (c / 2%:R) *: (x^T *m b) - (1 - c / 2%:R) *: (x^T *m b^T))
                = c *: (v^T *m v) - (c / 2%:R) *: (b^T *m b) - (1 - c / 2%:R) *: (b^T *m b^T).
        by rewrite !mulmxBr -!scalemxAr !mulmxA bT.
      have -> : (v - c^-1 *: (x^T *m b))^T *m (v - c^-1 *: (x^T *m b)) = v^T *m v - c^-1 *: (b^T *m b).
        have -> : (v - c^-1 *: (x^T *m b))^T = v^T - c^-1 *: (b^T *m x) by rewrite linearB /= linearZ /= trmx_mul trmxK.
        have E1 : v^T *m (x^T *m b) = b^T *m b by rewrite mulmxA bT.
        have E2 : b^T *m x *m v = b^T *m b by rewrite -mulmxA.
        have E3 : b^T *m x *m (x^T *m b) = c *: (b^T *m b) by rewrite -mulmxA [x *m _]mulmxA xxT mul_scalar_mx -scalemxAr.
        rewrite mulmxBl !mulmxBr -!scalemxAl -!scalemxAr E1 E2 E3 !scalerA -mulrA mulVf // mulr1. by rewrite subrr subr0.
      have -> : (b - b^T)^T *m (b - b^T) = (b^T *m b - b^T *m b^T) - (b *m b - b *m b^T).
        have -> : (b - b^T)^T = b^T - b by apply/matrixP => i j; rewrite !mxE.
        by rewrite mulmxBl !mulmxBr.
      rewrite !linearB /= !linearZ /=.
      have -> : \tr (b *m b) = \tr (b^T *m b^T) by rewrite -trmx_mul mxtrace_tr.
      have -> : \tr (b *m b^T) = \tr (b^T *m b) by rewrite mxtrace_mulC.
      move: (\tr (v^T *m v)) (\tr (b^T *m b)) (\tr (b^T *m b^T)) => p q r.
      have -> : q - r - (r - q) = 2%:R * (q - r) by rewrite opprB mulr_natl mulr2n.
      rewrite mulrA divfK ?two_neq0 // mulrBr mulrA mulfV // mul1r.
      move: (c / 2%:R) (c * p) => k cp. rewrite mulrBr [(1 - k) * q]mulrBl mul1r.
      by rewrite !addrA addrNK.
    Qed.
    Hypothesis C1 : 0 <= c <= 2%:R.
    Lemma descent v : 0 <= \tr (v^T *m (direction v x *m x^T)).
    Proof.
      case/andP: C1 => A B. rewrite descent_identity addr_ge0 // mulr_ge0 ?trace_sq_ge0 //.
      by rewrite mulr_ge0 ?invr_ge0 ?ler0n // subr_ge0 ler_pdivr_mulr ?ltr0n // mul1r.
    Qed.
    (** No descent: the direction vanishes. *)
    Lemma descent_stationary v : c < 2%:R -> \tr (v^T *m (direction v x *m x^T)) = 0 -> direction v x *m x^T = 0.
    Proof.
      move=> L; case/andP: C1 => A B; rewrite descent_identity => /eqP; rewrite paddr_eq0; last first.
      - rewrite mulr_ge0 ?trace_sq_ge0 // mulr_ge0 ?invr_ge0 ?ler0n // subr_ge0 ler_pdivr_mulr ?ltr0n //.
        by rewrite mul1r.
      - by rewrite mulr_ge0 ?trace_sq_ge0.
      have K : (1 - c / 2%:R) / 2%:R != 0.
        by rewrite mulf_neq0 ?invr_neq0 ?two_neq0 // subr_eq0 eq_sym lt_eqF // ltr_pdivr_mulr ?ltr0n // mul1r.
      rewrite !mulf_eq0 (negbTE C0) => /andP []. rewrite /= => /eqP /trace_sq_eq0 H1.
      move: K; rewrite mulf_eq0 negb_or => /andP [/negbTE -> /negbTE ->] /= /eqP /trace_sq_eq0 H2.
      move/eqP: H1; rewrite subr_eq0 => /eqP H1. move/eqP: H2; rewrite subr_eq0 => /eqP H2.
      rewrite velocity -H2 -addrA -opprD -scalerDl [c / _ + _]addrC subrK scale1r {1}H1.
      by rewrite scalerA mulfV // scale1r subrr.
    Qed.
  End Descent.
End Proofs.
