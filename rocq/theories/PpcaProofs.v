(** Probabilistic principal component analysis: proofs. *)
From mathcomp Require Import all_ssreflect all_algebra.
From Verif Require Import RingId RingId3 NystromM MatrixSpec NystromMProofs KpcaM KpcaSpec KpcaMProofs LssvmMProofs SubspaceProofs
  GenerateM GenerateProofs PpcaM PpcaSpec.
Set Implicit Arguments. Unset Strict Implicit. Unset Printing Implicit Defensive.
Import GRing.Theory Num.Theory Order.POrderTheory Order.TotalTheory.
Local Open Scope ring_scope.

Section Eigs.
  Variables (R : rcfType) (n : nat) (K : 'M[R]_n) (s : 'rV[R]_n) (V : 'M[R]_n).
  Hypothesis E : eigendecomposition K s V.
  Variables (q : nat) (Hq : (q <= n)%N).
  Notation v := (eigs_values Hq s).
  Notation U := (eigs_vectors Hq V).
  Lemma eigs_orthonormal : orthonormal U.
  Proof.
    apply/matrixP => i j. case: E => O _. have := congr1 (fun M : 'M[R]_n => M (top Hq i) (top Hq j)) O.
    rewrite [X in _ = X -> _]mxE (inj_eq (@top_inj n q Hq)) [X in _ -> _ = X]mxE => <-. rewrite mxE [RHS]mxE.
    apply: eq_bigr => a _. by rewrite !mxE.
  Qed.
  Lemma eigs_eigen : K *m U = U *m diag_mx v.
  Proof.
    apply/matrixP => a i. case: E => _ [H _]. have := congr1 (fun M : 'M[R]_n => M a (top Hq i)) H.
    rewrite !mul_diag_entry => H'. rewrite [U a i]mxE [v 0 i]mxE -H' mxE [RHS]mxE. apply: eq_bigr => b _. by rewrite mxE.
  Qed.
  Lemma eigs_sum : \tr K = \sum_i v 0 i + left_out_sum s q.
  Proof.
    rewrite (trace_sum E) (bigID (fun j : 'I_n => (j < n - q)%N)) /= addrC. congr (_ + _).
    rewrite (eq_bigl (mem [set top Hq i | i in [pred i | predT (top Hq i)]])); last first.
      move=> j. have T := top_image Hq predT j. rewrite andbT in T. by rewrite -leqNgt -T.
    rewrite big_imset /=; last by move=> i j _ _; exact: top_inj.
    by apply: eq_bigr => i _; rewrite mxE.
  Qed.
  Lemma eigs_left : \tr K - \sum_i v 0 i = left_out_sum s q.
  Proof. by rewrite eigs_sum addrC addKr. Qed.
  Lemma eigs_gram : U^T *m K *m U = diag_mx v.
  Proof. by rewrite -mulmxA eigs_eigen mulmxA eigs_orthonormal mul1mx. Qed.
  Lemma left_count : (\sum_(j : 'I_n | (j < n - q)%N) 1 = n - q)%N.
  Proof.
    have L : (n - q <= n)%N by exact: leq_subr.
    rewrite sum1_card. rewrite -[RHS]card_ord. rewrite -(card_image (f := widen_ord L)); last by move=> i j /(congr1 val) /= H; exact: val_inj.
    apply: eq_card => j. rewrite unfold_in /=. apply/idP/imageP => [H | [i _ ->]].
      exists (Ordinal H) => //. exact: val_inj.
    by have := ltn_ord i.
  Qed.
  Lemma left_below i : left_out_sum s q <= (n%:R - q%:R) * v 0 i.
  Proof.
    have [_ [_ A]] := E. rewrite /left_out_sum. apply: (le_trans (y := \sum_(j : 'I_n | (j < n - q)%N) v 0 i)).
      apply: ler_sum => j Hj. rewrite mxE. apply: A. apply: ltnW. apply: (leq_trans Hj). rewrite /= leq_sub2l //.
    have C : #|[pred j : 'I_n | (j < n - q)%N]| = (n - q)%N by rewrite -sum1_card; exact: left_count.
    rewrite sumr_const C -[X in X <= _]mulr_natl natrB //.
  Qed.
End Eigs.

Section Dual.
  Variables (R : rcfType) (n : nat) (K : 'M[R]_n) (s : 'rV[R]_n) (V : 'M[R]_n).
  Hypothesis E : eigendecomposition K s V.
  Variables (q : nat) (Hq : (q <= n)%N).
  Hypothesis npos : (0 < n)%N.
  Notation v := (eigs_values Hq s).
  Notation U := (eigs_vectors Hq V).
  Notation sigma := (ppca_noise n K v).
  Let nR : 0 < n%:R :> R. Proof. by rewrite ltr0n. Qed.
  Let n0 : n%:R != 0 :> R. Proof. by rewrite gt_eqF. Qed.

  (** The noise is the mean of the variances left out. *)
  Lemma noise_mean : (n%:R - q%:R) * sigma = n%:R^-1 * left_out_sum s q.
  Proof.
    rewrite /ppca_noise. case: eqP => [Eq | Nq].
      have -> : left_out_sum s q = 0 by rewrite /left_out_sum big1 // => j; rewrite Eq subnn.
      by rewrite !mulr0.
    have D : n%:R - q%:R != 0 :> R.
      rewrite subr_eq0 eqr_nat. apply/eqP => H. by apply: Nq.
    by rewrite (eigs_left E Hq) invfM mulrC -!mulrA mulVf // mulr1 mulrC.
  Qed.
  Lemma noise_ge0 : psd K -> 0 <= sigma.
  Proof.
    move=> P. rewrite /ppca_noise. case: eqP => // Nq. rewrite (eigs_left E Hq).
    apply: divr_ge0; first by apply: sumr_ge0 => j _; exact: (psd_spectrum E P).
    apply: mulr_ge0; first exact: ltW. by rewrite subr_ge0 ler_nat.
  Qed.
  (** Each variance that is kept is at least the noise. *)
  Lemma noise_below i : psd K -> n%:R * sigma <= v 0 i.
  Proof.
    move=> P. have N := noise_mean. have L := left_below E Hq i.
    case: (ltnP q n) => [lt | ge].
      have D : 0 < n%:R - q%:R :> R by rewrite subr_gt0 ltr_nat.
      by rewrite -(ler_pmul2l D) mulrCA N mulrA mulfV // mul1r.
    have Eq : q == n by rewrite eqn_leq Hq ge.
    rewrite /ppca_noise ifT // mulr0 mxE. exact: (psd_spectrum E P).
  Qed.

  Section Solved.
    Variable H : 'M[R]_(n, q).
    Hypothesis S : ppca_dual K Hq s V = Some H.
    Lemma dual_parts : (forall i, v 0 i != 0) /\ (forall i, 0 <= dual_factor n sigma (v 0 i)) /\
      H = U *m diag_mx (\row_i Num.sqrt (dual_factor n sigma (v 0 i))).
    Proof.
      move: S. rewrite /ppca_dual /ppca_hidden. case: ifP => // /forallP F [<-]. split; first by move=> i; case/andP: (F i).
      split=> // i. by case/andP: (F i).
    Qed.
    Lemma dual_gram : H^T *m K *m H = diag_mx (\row_i (v 0 i / n%:R - sigma ^+ 2)).
    Proof.
      have [N [F ->]] := dual_parts.
      rewrite trmx_mul tr_diag_mx -!mulmxA [K *m (_ *m _)]mulmxA (eigs_eigen E Hq) -[U *m _ *m _]mulmxA [U^T *m (_ *m _)]mulmxA.
      rewrite (eigs_orthonormal E Hq) mul1mx !mulmx_diag. congr diag_mx. apply/matrixP => a i. rewrite !mxE.
      have Fi := F i. have Ni := N i. rewrite mxE in Fi Ni.
      rewrite mulrCA -expr2 sqr_sqrtr // /dual_factor mulrBr [s 0 _ * (_ / _)]mulrCA mulfV // mulr1. by [].
    Qed.
    Theorem dual_variances : H^T *m K *m H + sigma ^+ 2 *: 1%:M = n%:R^-1 *: diag_mx v.
    Proof.
      rewrite dual_gram. apply/matrixP => i j. rewrite !mxE. case: eqP => [-> | _]; rewrite /= ?mulr1n ?mulr0n ?mulr1 ?mulr0 ?addr0 //.
      by rewrite addrNK mulrC.
    Qed.
    Theorem dual_total : (q < n)%N ->
      (\tr (H^T *m K *m H) + n%:R * sigma ^+ 2 = n%:R^-1 * \tr K <-> sigma = 0 \/ sigma = 1).
    Proof.
      move=> lt. have D : n%:R - q%:R != 0 :> R by rewrite subr_eq0 eqr_nat neq_ltn lt orbT.
      have T : \tr (H^T *m K *m H) = n%:R^-1 * (\sum_i v 0 i) - q%:R * sigma ^+ 2.
        rewrite dual_gram mxtrace_diag.
        transitivity (\sum_i (n%:R^-1 * v 0 i - sigma ^+ 2)); first by apply: eq_bigr => i _; rewrite mxE mulrC.
        rewrite sumrB -big_distrr /= sumr_const card_ord. by rewrite [q%:R * _]mulr_natl.
      rewrite T (eigs_sum E Hq) mulrDr -noise_mean -addrA. split=> [H1 | H1].
        have := addrI _ H1. rewrite [- _ + _]addrC -mulrBl => H2.
        have := mulfI D H2. move/eqP. rewrite expr2 -subr_eq0 -{3}[sigma]mulr1 -mulrBr mulf_eq0 subr_eq0 => /orP[] /eqP; by [left | right].
      congr (_ + _). rewrite [- _ + _]addrC -mulrBl. congr (_ * _). by case: H1 => ->; rewrite ?expr0n ?expr1n.
    Qed.
  End Solved.

  (** When the solution is made of numbers. *)
  Theorem dual_exactly : psd K ->
    ((exists H, ppca_dual K Hq s V = Some H) <-> forall i, 0 < v 0 i /\ n%:R * sigma ^+ 2 <= v 0 i).
  Proof.
    move=> P. have pos : forall i, 0 <= v 0 i by move=> i; rewrite mxE; exact: (psd_spectrum E P).
    have key : forall i, 0 < v 0 i -> (0 <= dual_factor n sigma (v 0 i)) = (n%:R * sigma ^+ 2 <= v 0 i).
      move=> i vi. by rewrite /dual_factor subr_ge0 ler_pdivr_mulr // mulrC ler_pdivl_mulr // mulrC.
    split=> [[H S] i | F].
      have [N [G _]] := dual_parts S. have vi : 0 < v 0 i by rewrite lt_neqAle eq_sym N pos.
      split=> //. by rewrite -key.
    rewrite /ppca_dual /ppca_hidden. case: ifP => [_ | /negbT /negP []]; first by eexists.
    apply/forallP => i. have [vi L] := F i. by rewrite gt_eqF // key.
  Qed.
  Theorem dual_small : psd K -> (forall i, 0 < v 0 i) -> sigma <= 1 -> exists H, ppca_dual K Hq s V = Some H.
  Proof.
    move=> P vp s1. apply/(dual_exactly P) => i. split=> //. apply: le_trans (noise_below i P).
    rewrite ler_pmul2l // expr2 -{3}[sigma]mulr1. apply: ler_wpmul2l => //. exact: noise_ge0.
  Qed.
End Dual.

(** ** Other units *)
Section Units.
  Variables (R : rcfType) (n : nat) (K : 'M[R]_n) (s : 'rV[R]_n) (V : 'M[R]_n) (t : R).
  Hypothesis E : eigendecomposition K s V.
  Hypothesis t0 : 0 < t.
  Lemma scaled_decomposition : eigendecomposition (t *: K) (t *: s) V.
  Proof.
    have [O [H A]] := E. split=> //. split.
      rewrite -scalemxAl H. have -> : diag_mx (t *: s) = t *: diag_mx s by apply/matrixP => i j; rewrite !mxE mulrnAr.
      by rewrite -scalemxAr.
    move=> i j /A L. rewrite mxE [X in _ <= X]mxE. by rewrite ler_pmul2l.
  Qed.
  Lemma scaled_values q (Hq : (q <= n)%N) : eigs_values Hq (t *: s) = t *: eigs_values Hq s.
  Proof. by apply/matrixP => i j; rewrite !mxE. Qed.
  Lemma scaled_noise q (Hq : (q <= n)%N) : ppca_noise n (t *: K) (eigs_values Hq (t *: s)) = t * ppca_noise n K (eigs_values Hq s).
  Proof.
    rewrite /ppca_noise scaled_values. case: eqP => _; first by rewrite mulr0.
    rewrite linearZ /= mulrA. congr (_ / _). rewrite mulrBr. congr (_ - _). rewrite big_distrr /=. by apply: eq_bigr => i _; rewrite mxE.
  Qed.
  Lemma scaled_psd : psd K -> psd (t *: K).
  Proof. move=> P c. rewrite /qform -scalemxAr -scalemxAl mxE. apply: mulr_ge0; [exact: ltW | exact: P]. Qed.
  Theorem scaled_exactly q (Hq : (q <= n)%N) : (0 < n)%N -> psd K ->
    ((exists H, ppca_dual (t *: K) Hq (t *: s) V = Some H) <->
     forall i, 0 < eigs_values Hq s 0 i /\ t * (n%:R * ppca_noise n K (eigs_values Hq s) ^+ 2) <= eigs_values Hq s 0 i).
  Proof.
    move=> N P. split=> [S i | F].
      have [] := proj1 (dual_exactly scaled_decomposition Hq N (scaled_psd P)) S i.
      rewrite scaled_noise scaled_values mxE pmulr_rgt0 // => vi L. split=> //. move: L.
      by rewrite exprMn expr2 mulrCA -[t * t * _]mulrA ler_pmul2l // mulrCA.
    apply/(dual_exactly scaled_decomposition Hq N (scaled_psd P)) => i. have [vi L] := F i.
    rewrite scaled_noise scaled_values mxE pmulr_rgt0 //. split=> //.
    by rewrite exprMn expr2 mulrCA -[t * t * _]mulrA ler_pmul2l // mulrCA.
  Qed.
End Units.

(** ** The most likely latent variables *)
Section Likely.
  Variables (R : rcfType) (d q m : nat) (W : 'M[R]_(d, q)) (sigma : R) (phi : 'M[R]_(m, d)).
  Lemma likely_gap (h0 h : 'M[R]_(m, q)) : (phi - h0 *m W^T) *m W = sigma ^+ 2 *: h0 ->
    unlikeliness sigma W phi h = unlikeliness sigma W phi h0 + sigma ^+ 2 * frobenius2 (h - h0) + frobenius2 ((h - h0) *m W^T).
  Proof.
    move=> H. have [e Ee] : exists e, h = h0 + e by exists (h - h0); rewrite addrC subrK.
    have -> : h - h0 = e by rewrite Ee addrC addKr.
    rewrite /unlikeliness Ee. set r := phi - h0 *m W^T.
    have -> : phi - (h0 + e) *m W^T = r + - (e *m W^T) by rewrite mulmxDl opprD addrA.
    have IE : inner r (e *m W^T) = sigma ^+ 2 * inner h0 e.
      rewrite -[RHS]inner_scale -H /inner trmx_mul trmxK mulmxA. by [].
    rewrite frobenius2_add frobenius2N inner_opp IE [frobenius2 (h0 + e)]frobenius2_add.
    rewrite [LHS]addrC [frobenius2 r + sigma ^+ 2 * _]addrC. exact: gap_identity.
  Qed.
  Theorem likely_best (h0 h : 'M[R]_(m, q)) : (phi - h0 *m W^T) *m W = sigma ^+ 2 *: h0 ->
    unlikeliness sigma W phi h0 <= unlikeliness sigma W phi h.
  Proof.
    move=> H. rewrite (likely_gap h H) -addrA ler_addl. apply: addr_ge0; last exact: frobenius2_ge0.
    apply: mulr_ge0; [exact: sqr_ge0 | exact: frobenius2_ge0].
  Qed.
  Theorem likely_only (h0 h : 'M[R]_(m, q)) : sigma != 0 -> (phi - h0 *m W^T) *m W = sigma ^+ 2 *: h0 ->
    unlikeliness sigma W phi h <= unlikeliness sigma W phi h0 -> h = h0.
  Proof.
    move=> S H. rewrite (likely_gap h H) -addrA ger_addl => L.
    have s2 : 0 < sigma ^+ 2 by rewrite lt_neqAle eq_sym sqrf_eq0 S sqr_ge0.
    have N1 : 0 <= sigma ^+ 2 * frobenius2 (h - h0) by apply: mulr_ge0; [exact: ltW | exact: frobenius2_ge0].
    have N2 := frobenius2_ge0 ((h - h0) *m W^T).
    have Z : sigma ^+ 2 * frobenius2 (h - h0) = 0.
      apply/eqP. rewrite eq_le N1 andbT. apply: le_trans L. by rewrite ler_addl.
    apply/eqP. rewrite -subr_eq0. apply/eqP. apply: frobenius2_eq0. move/eqP: Z. by rewrite mulf_eq0 gt_eqF //= => /eqP.
  Qed.
  (** The equation holds for what the library computes. *)
  Lemma likely_equation (n : nat) (v : 'rV[R]_q) : (0 < n)%N -> (forall i, v 0 i != 0) ->
    W^T *m W + sigma ^+ 2 *: 1%:M = n%:R^-1 *: diag_mx v ->
    let h0 := n%:R *: (phi *m W *m diag_mx (map_mx (fun x => x^-1) v)) in (phi - h0 *m W^T) *m W = sigma ^+ 2 *: h0.
  Proof.
    move=> N Nv G h0. have n0 : n%:R != 0 :> R by rewrite pnatr_eq0 -lt0n.
    have D : h0 *m (n%:R^-1 *: diag_mx v) = phi *m W.
      rewrite /h0 -scalemxAl -scalemxAr scalerA mulfV // scale1r -[LHS]mulmxA mulmx_diag.
      have -> : diag_mx (\row_j (map_mx (fun x : R => x^-1) v 0 j * v 0 j)) = 1%:M.
        rewrite -diag_const_mx. congr diag_mx. apply/matrixP => a i. by rewrite !mxE mulVf.
      by rewrite mulmx1.
    rewrite mulmxBl -D -G mulmxDr mulmxA -scalemxAr mulmx1 addrC addKr. by [].
  Qed.
End Likely.

Section Maps.
  Variables (R : rcfType) (n d : nat) (Phi : 'M[R]_(n, d)).
  (** In dual the weights are those of the hidden variables. *)
  Lemma dual_weight_gram q (H : 'M[R]_(n, q)) : (Phi^T *m H)^T *m (Phi^T *m H) = H^T *m (Phi *m Phi^T) *m H.
  Proof. by rewrite trmx_mul trmxK !mulmxA. Qed.
  Lemma dual_h_weight q (H : 'M[R]_(n, q)) v m (phi : 'M[R]_(m, d)) :
    ppca_h_dual H v (phi *m Phi^T) = n%:R *: (phi *m (Phi^T *m H) *m diag_mx (map_mx (fun x => x^-1) v)).
  Proof. by rewrite /ppca_h_dual !mulmxA. Qed.
  Lemma k_map_phi q (H : 'M[R]_(n, q)) m (h : 'M[R]_(m, q)) :
    ppca_k_map (Phi *m Phi^T) H h = ppca_phi_map (Phi^T *m H) h *m Phi^T.
  Proof. by rewrite /ppca_k_map /ppca_phi_map trmx_mul trmxK !mulmxA. Qed.
End Maps.

(** ** Primal *)
Section Primal.
  Variables (R : rcfType) (n d : nat) (Phi : 'M[R]_(n, d)) (s : 'rV[R]_d) (V : 'M[R]_d).
  Hypothesis E : eigendecomposition (second_moment Phi) s V.
  Variables (q : nat) (Hq : (q <= d)%N).
  Hypothesis npos : (0 < n)%N.
  Notation v := (eigs_values Hq s).
  Notation U := (eigs_vectors Hq V).
  Notation sigma := (ppca_noise n (second_moment Phi) v).
  Variable W : 'M[R]_(d, q).
  Hypothesis S : ppca_primal Phi Hq s V = Some W.
  Lemma primal_variances : W^T *m W + sigma ^+ 2 *: 1%:M = n%:R^-1 *: diag_mx v.
  Proof.
    move: S. rewrite /ppca_primal /ppca_weight. case: ifP => // /forallP F [<-].
    rewrite trmx_mul tr_diag_mx mulmxA -[_ *m U^T *m U]mulmxA (eigs_orthonormal E Hq) mulmx1 mulmx_diag.
    apply/matrixP => i j. rewrite !mxE. case: eqP => [-> | _]; rewrite /= ?mulr1n ?mulr0n ?mulr1 ?mulr0 ?addr0 //.
    have Fj := F j. rewrite mxE in Fj. rewrite -expr2 sqr_sqrtr // /primal_factor addrNK mulrC. by [].
  Qed.
  Theorem primal_right : (W^T *m W + sigma ^+ 2 *: 1%:M = diag_mx v <-> n = 1%N \/ forall i, v 0 i = 0).
  Proof.
    have n0 : n%:R != 0 :> R by rewrite pnatr_eq0 -lt0n.
    rewrite primal_variances. split=> [H | [-> | Z]]; last first.
      have -> : v = 0 by apply/matrixP => a i; rewrite (ord1 a) Z mxE. by rewrite linear0 scaler0.
      by rewrite invr1 scale1r.
    case: (eqVneq n 1%N) => [-> | n1]; [by left | right=> i].
    have := congr1 (fun M : 'M[R]_q => M i i) H. rewrite [LHS]mxE [X in _ * X]mxE [RHS]mxE eqxx mulr1n => /eqP.
    rewrite -subr_eq0 -{2}[v 0 i]mul1r -mulrBl mulf_eq0 => /orP[|/eqP //].
    rewrite subr_eq0 => /eqP one. case/negP: n1. have : n%:R == 1 :> R by rewrite -[n%:R]invrK one invr1.
    by rewrite pnatr_eq1.
  Qed.
End Primal.

(** ** Draws *)
Section Draw.
  Variables (R : rcfType) (d : nat) (A L : 'M[R]_d).
  Hypothesis C : cholesky A L.
  Lemma draw_moment num (u : 'M[R]_(num, d)) : second_moment u = 1%:M -> second_moment (ppca_draw L u) = L^T *m L.
  Proof. move=> H. by rewrite /ppca_draw moment_mul H mulmx1. Qed.
  Lemma columns_zero : L^T *m L = L *m L^T -> forall k (j i : 'I_d), (j <= k)%N -> (j < i)%N -> L i j = 0.
  Proof.
    have [_ [T _]] := C. move=> N. elim=> [|k IH] j i jk ji; have := congr1 (fun M : 'M[R]_d => M j j) N; rewrite [LHS]mxE [RHS]mxE.
    - move: jk. rewrite leqn0 => /eqP j0.
      rewrite (bigD1 j) //= [RHS](bigD1 j) //= !mxE => /addrI.
      rewrite [RHS]big1; last first.
        move=> a Na. have ja : (j < a)%N by rewrite j0 lt0n; apply: contra Na => /eqP a0; apply/eqP/val_inj; exact: (etrans a0 (esym j0)).
        by rewrite (T j a ja) mul0r.
      have P : forall a : 'I_d, a != j -> 0 <= L^T j a * L a j by move=> a _; rewrite mxE -expr2 sqr_ge0.
      move/eqP. rewrite psumr_eq0 // => /allP /(_ i). rewrite mem_index_enum => /(_ isT).
      have -> : i != j by apply/eqP => ij; move: ji; rewrite ij ltnn. by rewrite /= mxE mulf_eq0 orbb => /eqP.
    - rewrite (bigD1 j) //= [RHS](bigD1 j) //= !mxE => /addrI.
      rewrite [RHS]big1; last first.
        move=> a Na. case: (ltnP j a) => ja; first by rewrite (T j a ja) mul0r.
        have aj : (a < j)%N by rewrite ltn_neqAle ja andbT; apply: contra Na => /eqP H; apply/eqP/val_inj.
        by rewrite (IH a j) ?mul0r // -ltnS (leq_trans aj).
      have P : forall a : 'I_d, a != j -> 0 <= L^T j a * L a j by move=> a _; rewrite mxE -expr2 sqr_ge0.
      move/eqP. rewrite psumr_eq0 // => /allP /(_ i). rewrite mem_index_enum => /(_ isT).
      have -> : i != j by apply/eqP => ij; move: ji; rewrite ij ltnn. by rewrite /= mxE mulf_eq0 orbb => /eqP.
  Qed.
  Theorem draw_right : L^T *m L = A <-> diagonal A.
  Proof.
    have [LA [T Pd]] := C. split=> [N | Di].
      rewrite -LA in N. have Z := columns_zero N.
      have D : forall i j, i != j -> L i j = 0.
        move=> i j Nij. case: (ltngtP i j) => [ij | ji | H]; [exact: T | exact: (Z j) | by case/negP: Nij; apply/eqP/val_inj].
      move=> i j Nij. rewrite -LA mxE big1 // => a _. rewrite [L^T _ _]mxE.
      case: (eqVneq i a) => [ia | Na]; last by rewrite (D i a) ?mul0r.
      by rewrite (D j a) ?mulr0 // -ia eq_sym.
    have D : forall j i : 'I_d, (j < i)%N -> L i j = 0.
      move=> j. elim: (val j) {-2}j (leqnn j) => [|k IH] {}j jk i ji.
      - have := Di i j. rewrite -LA mxE.
        have Nij : i != j by apply/eqP => ij; move: ji; rewrite ij ltnn.
        move/(_ Nij). rewrite (bigD1 j) //= big1; last first.
          move=> a Na. rewrite [L^T _ _]mxE. rewrite (T j a) ?mulr0 //. move: jk; rewrite leqn0 => /eqP j0.
          rewrite j0 lt0n. by apply: contra Na => /eqP a0; apply/eqP/val_inj; exact: (etrans a0 (esym j0)).
        rewrite addr0 [L^T _ _]mxE => /eqP. by rewrite mulf_eq0 [L j j == 0]gt_eqF // orbF => /eqP.
      - have := Di i j. rewrite -LA mxE.
        have Nij : i != j by apply/eqP => ij; move: ji; rewrite ij ltnn.
        move/(_ Nij). rewrite (bigD1 j) //= big1; last first.
          move=> a Na. rewrite [L^T _ _]mxE. case: (ltnP j a) => ja; first by rewrite (T j a ja) mulr0.
          have aj : (a < j)%N by rewrite ltn_neqAle ja andbT; apply: contra Na => /eqP H; apply/eqP/val_inj.
          have ak : (a <= k)%N by rewrite -ltnS (leq_trans aj).
          by rewrite (IH a ak j aj) mulr0.
        rewrite addr0 [L^T _ _]mxE => /eqP. by rewrite mulf_eq0 [L j j == 0]gt_eqF // orbF => /eqP.
    have LD : L^T = L.
      apply/matrixP => i j. rewrite mxE. case: (ltngtP i j) => [ij | ji | H].
      - by rewrite (D i j ij) (T i j ij).
      - by rewrite (D j i ji) (T j i ji).
      - by rewrite (val_inj H).
    by rewrite -LA LD.
  Qed.
End Draw.
