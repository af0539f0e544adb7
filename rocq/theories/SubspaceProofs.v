(** Principal subspaces of nearby matrices: proofs. *)
From mathcomp Require Import all_ssreflect all_algebra.
From Verif Require Import NystromM MatrixSpec NystromMProofs KpcaM KpcaSpec KpcaMProofs KpcaMore InterlaceProofs LssvmMonoProofs LimitProofs PerturbProofs SubspaceSpec.
Set Implicit Arguments. Unset Strict Implicit. Unset Printing Implicit Defensive.
Import GRing.Theory Num.Theory Order.POrderTheory Order.TotalTheory.
Local Open Scope ring_scope.

Section Frobenius.
  Variable R : rcfType.
  Lemma frob_tr m n (A : 'M[R]_(m, n)) : frobenius2 A = \tr (A^T *m A).
  Proof.
    rewrite /frobenius2 exchange_big /=. apply: eq_bigr => j _. rewrite [RHS]mxE. apply: eq_bigr => i _. by rewrite [(_^T) _ _]mxE expr2.
  Qed.
  Lemma frobT m n (A : 'M[R]_(m, n)) : frobenius2 A^T = frobenius2 A.
  Proof. rewrite /frobenius2 exchange_big /=. apply: eq_bigr => i _. apply: eq_bigr => j _. by rewrite mxE. Qed.
  Lemma frob_left p m n (U : 'M[R]_(p, m)) (A : 'M[R]_(m, n)) : U^T *m U = 1%:M -> frobenius2 (U *m A) = frobenius2 A.
  Proof. by move=> H; rewrite !frob_tr trmx_mul -mulmxA (mulmxA U^T) H mul1mx. Qed.
  Lemma frob_right p m n (U : 'M[R]_(n, p)) (A : 'M[R]_(m, n)) : U *m U^T = 1%:M -> frobenius2 (A *m U) = frobenius2 A.
  Proof. by move=> H; rewrite -frobT trmx_mul frob_left ?trmxK // frobT. Qed.
  Lemma frob_ge0 m n (A : 'M[R]_(m, n)) : 0 <= frobenius2 A.
  Proof. by apply: sumr_ge0 => i _; apply: sumr_ge0 => j _; exact: sqr_ge0. Qed.
  Lemma frob_form n (A : 'M[R]_n) f : 0 <= f -> frobenius2 A <= f ^+ 2 -> forall x, `|qform A x| <= f * sqn x.
  Proof.
    move=> f0 H x. rewrite -(@ler_pexpn2r _ 2) ?nnegrE ?normr_ge0 ?mulr_ge0 ?sqn_ge0 //.
    rewrite real_normK ?num_real //.
    have -> : qform A x = \sum_a x a 0 * (A *m x) a 0.
      rewrite /qform -mulmxA mxE. apply: eq_bigr => a _. by rewrite [(_^T) _ _]mxE.
    apply: le_trans (sum_schwarz _ _) _. rewrite exprMn [X in X * _]/(sqn x) expr2 mulrCA mulrA [sqn x * f ^+ 2]mulrC -[X in _ <= X]mulrA.
    rewrite -/(sqn x) mulrCA. apply: ler_wpmul2l; first exact: sqn_ge0.
    apply: le_trans (ler_wpmul2r (sqn_ge0 x) H). rewrite mulr_suml. apply: ler_sum => a _.
    rewrite mxE. exact: sum_schwarz.
  Qed.
  Lemma frob_bilinear n (A : 'M[R]_n) (x y : 'rV[R]_n) :
    (x *m A *m y^T) 0 0 ^+ 2 <= (\sum_a x 0 a ^+ 2) * (\sum_a y 0 a ^+ 2) * frobenius2 A.
  Proof.
    have -> : (x *m A *m y^T) 0 0 = \sum_a x 0 a * (A *m y^T) a 0 by rewrite -mulmxA mxE.
    apply: le_trans (sum_schwarz _ _) _. rewrite -mulrA. apply: ler_wpmul2l; first by apply: sumr_ge0 => a _; exact: sqr_ge0.
    rewrite [X in _ <= X]mulrC mulr_suml. apply: ler_sum => a _. rewrite mxE.
    have -> : \sum_j A a j * (y^T) j 0 = \sum_j A a j * y 0 j by apply: eq_bigr => j _; rewrite mxE.
    exact: sum_schwarz.
  Qed.
End Frobenius.

Section Near.
  Variables (R : rcfType) (n : nat) (K K' : 'M[R]_n) (s s' : 'rV[R]_n) (V V' : 'M[R]_n).
  Hypothesis E : eigendecomposition K s V.
  Hypothesis E' : eigendecomposition K' s' V'.
  Definition span (W : 'M[R]_n) (P : pred 'I_n) : 'M[R]_n := \matrix_(a, b) \sum_(j | P j) W a j * W b j.
  Definition mask (P : pred 'I_n) : 'rV[R]_n := \row_j (P j)%:R.
  Lemma span_mx W P : span W P = W *m diag_mx (mask P) *m W^T.
  Proof.
    apply/matrixP => a b. rewrite [LHS]mxE [RHS]mxE big_mkcond /=. apply: eq_bigr => j _.
    rewrite mul_diag_entry ![in RHS]mxE. by case: (P j); rewrite /= ?mulr1 ?mulr0 ?mul0r.
  Qed.
  (** Two families of eigenvectors whose complements have other eigenvalues. *)
  Theorem sine (A B : pred 'I_n) g : 0 < g ->
    (forall i j, A i != B j -> g <= `|s 0 i - s' 0 j|) ->
    g ^+ 2 * frobenius2 (span V A - span V' B) <= frobenius2 (K - K').
  Proof.
    move=> g0 G. have O := orth_rows E. have O' := orth_rows E'. case: (E) => [H [He _]]. case: (E') => [H' [He' _]].
    have T : K^T = K.
      by rewrite (spectral_mx E) !trmx_mul trmxK tr_diag_mx mulmxA.
    pose C := V^T *m V'.
    have L : frobenius2 (K - K') = \sum_i \sum_j ((s 0 i - s' 0 j) * C i j) ^+ 2.
      rewrite -(@frob_left _ _ _ _ V^T) ?trmxK // -(@frob_right _ _ _ _ V') //.
      apply: eq_bigr => i _. apply: eq_bigr => j _. congr (_ ^+ 2).
      have -> : V^T *m (K - K') *m V' = diag_mx s *m C - C *m diag_mx s'.
        rewrite mulmxBr mulmxBl -[V^T *m K' *m V']mulmxA He' /C !mulmxA. congr (_ *m _ - _).
        by rewrite -[V^T *m K]trmxK trmx_mul trmxK T He trmx_mul tr_diag_mx.
      rewrite mul_diag_mx mul_mx_diag. move: C => C. rewrite !mxE mulrBl. by congr (_ - _); rewrite mulrC.
    have S : frobenius2 (span V A - span V' B) = \sum_i \sum_j (((A i)%:R - (B j)%:R) * C i j) ^+ 2.
      rewrite -(@frob_left _ _ _ _ V^T) ?trmxK // -(@frob_right _ _ _ _ V') //.
      apply: eq_bigr => i _. apply: eq_bigr => j _. congr (_ ^+ 2).
      have -> : V^T *m (span V A - span V' B) *m V' = diag_mx (mask A) *m C - C *m diag_mx (mask B).
        rewrite mulmxBr mulmxBl !span_mx -!mulmxA H' mulmx1 !mulmxA H mul1mx. by rewrite /C.
      rewrite mul_diag_mx mul_mx_diag. move: C {L} => C. rewrite !mxE mulrBl. by congr (_ - _); rewrite mulrC.
    rewrite L S mulr_sumr. apply: ler_sum => i _. rewrite mulr_sumr. apply: ler_sum => j _.
    rewrite !exprMn mulrA. apply: ler_wpmul2r; first exact: sqr_ge0.
    case: (eqVneq (A i) (B j)) => [->|N]; first by rewrite subrr expr0n /= mulr0 sqr_ge0.
    have -> : ((A i)%:R - (B j)%:R) ^+ 2 = 1 :> R.
      by case: (A i) (B j) N => [] [] //= _; rewrite ?subr0 ?sub0r ?sqrrN expr1n.
    rewrite mulr1 -[X in _ <= X]real_normK ?num_real //. rewrite ler_pexpn2r ?nnegrE ?normr_ge0 ?(ltW g0) //. exact: G.
  Qed.
  Lemma values_near f : 0 <= f -> frobenius2 (K - K') <= f ^+ 2 -> forall i, `|s' 0 i - s 0 i| <= f.
  Proof.
    move=> f0 F i.
    have F' : frobenius2 (K' - K) <= f ^+ 2.
      suff <- : frobenius2 (K - K') = frobenius2 (K' - K) by [].
      apply: eq_bigr => a _. apply: eq_bigr => b _. by rewrite -sqrrN !mxE opprB.
    have U := @shift_above _ _ _ _ _ _ _ _ E E' f n (leqnn n) (fun x => le_trans (ler_norm _) (frob_form f0 F' x)) (rev_ord i).
    have D := @shift_above _ _ _ _ _ _ _ _ E' E f n (leqnn n) (fun x => le_trans (ler_norm _) (frob_form f0 F x)) (rev_ord i).
    have T : top (leqnn n) (rev_ord i) = i by rewrite /top; apply: val_inj => /=; rewrite subnSK // subKn // ltnW.
    move: U D. rewrite !mxE T => U D. rewrite ler_norml ler_subl_addl U andbT ler_oppl opprB ler_subl_addl. exact: D.
  Qed.
End Near.

Section Kept.
  Variables (R : rcfType) (n : nat) (K : 'M[R]_n) (s : 'rV[R]_n) (V : 'M[R]_n).
  Hypothesis E : eigendecomposition K s V.
  Variables (eps : R) (k : nat) (Hk : (k <= n)%N).
  Let q := nystrom_dim eps (eigs_values Hk s).
  Lemma param_le : (q <= n)%N.
  Proof. exact: leq_trans (dim_le s eps Hk) Hk. Qed.
  Lemma param_first a (i : 'I_q) : primal_param eps Hk s V a i = V a (rev_ord (widen_ord param_le i)).
  Proof. rewrite !mxE. congr (V a _). apply: val_inj => /=. by rewrite (kept_first E). Qed.
  Lemma param_span : primal_param eps Hk s V *m (primal_param eps Hk s V)^T = span V (fun j => (n - q <= j)%N).
  Proof.
    apply/matrixP => a b. rewrite [LHS]mxE [RHS]mxE [RHS](reindex_inj rev_ord_inj) /=.
    transitivity (\sum_(i < q) V a (rev_ord (widen_ord param_le i)) * V b (rev_ord (widen_ord param_le i))).
      apply: eq_bigr => i _. by rewrite -!param_first [(_^T) _ _]mxE.
    have N := @big_ord_narrow _ _ (GRing.add_monoid R) _ _ (fun i : 'I_n => V a (rev_ord i) * V b (rev_ord i)) param_le. rewrite /= in N.
    rewrite -N. apply: eq_bigl => i. by rewrite leq_subLR addnBA // leq_subRL ?leq_add2r // (leq_trans (ltn_ord i)) ?leq_addl.
  Qed.
End Kept.

Section Isolated.
  Variables (R : rcfType) (n : nat) (K K' : 'M[R]_n) (s s' : 'rV[R]_n) (V V' : 'M[R]_n).
  Hypothesis E : eigendecomposition K s V.
  Hypothesis E' : eigendecomposition K' s' V'.
  Variables (f g : R).
  Hypotheses (f0 : 0 <= f) (fg : f < g) (F : frobenius2 (K - K') <= f ^+ 2).
  Lemma from_product (x : R) : (g - f) ^+ 2 * x <= frobenius2 (K - K') -> x <= (f / (g - f)) ^+ 2.
  Proof.
    move=> H. have P : 0 < g - f by rewrite subr_gt0. rewrite expr_div_n ler_pdivl_mulr ?exprn_gt0 // mulrC. exact: le_trans H F.
  Qed.
  Lemma near_le i : s 0 i - f <= s' 0 i /\ s' 0 i <= s 0 i + f.
  Proof.
    have := values_near E E' f0 F i. rewrite ler_norml => /andP[A B]. split; last by rewrite -ler_subl_addl.
    by rewrite ler_subl_addl -ler_subl_addr -[X in X <= _]opprB ler_oppl.
  Qed.
  Theorem span_change q : gap q s g ->
    frobenius2 (span V (fun j => (n - q <= j)%N) - span V' (fun j => (n - q <= j)%N)) <= (f / (g - f)) ^+ 2.
  Proof.
    move=> G. apply: from_product. apply: (sine E E'); first by rewrite subr_gt0.
    move=> i j. case: (leqP (n - q) i) => A; case: (leqP (n - q) j) => B // _.
    - apply: le_trans (ler_norm _). have [_ N] := near_le j. have M := G j i B A.
      rewrite ler_subr_addl. apply: le_trans M. rewrite addrCA. by rewrite addrC; apply: ler_add => //; rewrite ler_subl_addr.
    - rewrite distrC. apply: le_trans (ler_norm _). have [N _] := near_le j. have M := G i j A B.
      rewrite ler_subr_addl. apply: le_trans N. by rewrite addrA; apply: ler_sub.
  Qed.
  Lemma span1 (W : 'M[R]_n) j a b : span W (pred1 j) a b = W a j * W b j.
  Proof. by rewrite mxE big_pred1_eq. Qed.
  Lemma unit_column (L : 'M[R]_n) t W j : eigendecomposition L t W -> \sum_a W a j ^+ 2 = 1.
  Proof.
    case=> H _. have := congr1 (fun M : 'M[R]_n => M j j) H. rewrite mxE [RHS]mxE eqxx => {}H. rewrite -[RHS]H.
    apply: eq_bigr => a _. by rewrite [(_^T) _ _]mxE expr2.
  Qed.
  Lemma span1_distance j : frobenius2 (span V (pred1 j) - span V' (pred1 j)) = 2%:R - 2%:R * (\sum_a V a j * V' a j) ^+ 2.
  Proof.
    have U := unit_column j E. have U' := unit_column j E'.
    have -> : 2%:R - 2%:R * (\sum_a V a j * V' a j) ^+ 2 =
              (\sum_a V a j ^+ 2) * (\sum_a V a j ^+ 2) + (\sum_a V' a j ^+ 2) * (\sum_a V' a j ^+ 2)
              - (\sum_a V a j * V' a j) * (\sum_a V a j * V' a j) *+ 2.
      by rewrite U U' !mulr1 -expr2 [2%:R * _]mulr_natl.
    rewrite !big_distrlr /= -!big_split /= -sumrMnl -sumrB. apply: eq_bigr => a _.
    rewrite -sumrMnl -big_split -sumrB /=. apply: eq_bigr => b _.
    have -> : (span V (pred1 j) - span V' (pred1 j)) a b = V a j * V b j - V' a j * V' b j.
      by rewrite -!span1; move: (span V _) (span V' _) => X Y; rewrite !mxE.
    rewrite sqrrB !exprMn. by rewrite addrAC [V a j * V b j * _]mulrACA.
  Qed.
  Theorem component_change j : isolated j s g ->
    exists e : R, (e = 1 \/ e = -1) /\ \sum_a (V' a j - e * V a j) ^+ 2 <= (f / (g - f)) ^+ 2.
  Proof.
    move=> G.
    have D : frobenius2 (span V (pred1 j) - span V' (pred1 j)) <= (f / (g - f)) ^+ 2.
      apply: from_product. apply: (sine E E'); first by rewrite subr_gt0.
      move=> i k /=. have NE := values_near E E' f0 F.
      case: (eqVneq i j) => [->|A]; case: (eqVneq k j) => [->|B] //= _.
      - rewrite ler_subl_addr. apply: le_trans (G k B) _. rewrite distrC.
        apply: le_trans (ler_dist_add (s' 0 k) _ _) _. by rewrite ler_add2l NE.
      - rewrite ler_subl_addr. apply: le_trans (G i A) _.
        apply: le_trans (ler_dist_add (s' 0 j) _ _) _. by rewrite ler_add2l NE.
    move: D. rewrite span1_distance. set c := \sum_a _ => D.
    have X e : e ^+ 2 = 1 -> \sum_a (V' a j - e * V a j) ^+ 2 = 2%:R - 2%:R * (e * c).
      move=> H.
      have -> : 2%:R - 2%:R * (e * c) = \sum_a V' a j ^+ 2 - (e * c) *+ 2 + e ^+ 2 * \sum_a V a j ^+ 2.
        by rewrite (unit_column j E) (unit_column j E') H mulr1 [2%:R * _]mulr_natl addrAC.
      rewrite !mulr_sumr -sumrMnl -sumrB -big_split /=. apply: eq_bigr => a _.
      by rewrite sqrrB exprMn mulrCA [V' a j * _]mulrC.
    have C : c ^+ 2 <= 1.
      rewrite -[X in _ <= X]mulr1 -{1}(unit_column j E) -(unit_column j E'). exact: sum_schwarz.
    have N : `|c| <= 1 by rewrite -(@ler_pexpn2r _ 2) ?nnegrE ?normr_ge0 ?ler01 // expr1n real_normK ?num_real.
    have Q : c ^+ 2 <= `|c|.
      by rewrite -real_normK ?num_real // expr2 -[X in _ <= X]mul1r; apply: ler_wpmul2r.
    case: (ger0P c) => S; [exists 1; split; first by left | exists (-1); split; first by right].
    - rewrite X ?expr1n // mul1r. apply: le_trans D. rewrite ler_add2l ler_oppl opprK. apply: ler_wpmul2l; first exact: ler0n.
      by rewrite -{2}(ger0_norm S).
    - rewrite X ?sqrrN ?expr1n // mulN1r. apply: le_trans D. rewrite ler_add2l ler_oppl opprK. apply: ler_wpmul2l; first exact: ler0n.
      by rewrite -(ltr0_norm S).
  Qed.
End Isolated.
