(** Principal components of a Nystrom kernel: proofs. *)
From mathcomp Require Import all_ssreflect all_fingroup all_algebra.
From Verif Require Import NystromM MatrixSpec NystromMProofs NystromOosProofs KpcaM KpcaSpec KpcaMProofs SolverSpec SolverProofs PerturbProofs SubspaceProofs InterlaceProofs NystromKpcaSpec.
Set Implicit Arguments. Unset Strict Implicit. Unset Printing Implicit Defensive.
Import GRing.Theory Num.Theory Order.POrderTheory Order.TotalTheory.
Local Open Scope ring_scope.

Section Cut.
  Variables (R : rcfType) (n : nat) (K : 'M[R]_n) (s : 'rV[R]_n) (V : 'M[R]_n).
  Hypothesis E : eigendecomposition K s V.
  Variables (eps : R) (p : nat) (Hp : (p <= n)%N).
  Hypothesis e0 : 0 < eps.
  Let N := nystrom_sample eps Hp s V.
  Let t := cut eps p s.

  Lemma cutE j : t 0 j = if left_out s eps p j then 0 else s 0 j.
  Proof. by rewrite mxE. Qed.
  Lemma gram_cut : N *m N^T = V *m diag_mx t *m V^T.
  Proof.
    apply/matrixP => a b. rewrite nystrom_gram ?ltW // [RHS]mxE [LHS]big_mkcond /=. apply: eq_bigr => j _.
    rewrite mul_mx_diag [(_^T) _ _]mxE [(\matrix_(_, _) _) _ _]mxE cutE.
    by case: (left_out s eps p j) => /=; rewrite ?mulr0 ?mul0r // [V a j * _]mulrC.
  Qed.
  Lemma cut_decomposition : eigendecomposition (N *m N^T) t V.
  Proof.
    case: (E) => O [_ A]. split=> //. split; first by rewrite gram_cut -!mulmxA O mulmx1.
    move=> i j ij. rewrite !cutE /left_out. have L := A _ _ ij.
    case: (ltnP j (n - p)) => [Hj|Hj] /=; first by rewrite (leq_ltn_trans ij Hj).
    case: (ltP (s 0 j) eps) => [Sj|Sj] /=; first by rewrite (le_lt_trans L Sj) orbT.
    case: ifP => _ //. exact: le_trans (ltW e0) Sj.
  Qed.

  Variables (eps' : R) (k : nat) (Hk : (k <= n)%N) (Hm : (minn k p <= n)%N).
  Hypothesis e0' : 0 < eps'.
  Let em := Num.max eps eps'.

  Lemma below_min j : (j < n - minn k p)%N = (j < n - k)%N || (j < n - p)%N.
  Proof.
    case: (leqP k p) => L.
      case: (ltnP j (n - k)) => //= H. apply/esym/negbTE. by rewrite -leqNgt (leq_trans _ H) // leq_sub2l.
    rewrite orbC. case: (ltnP j (n - p)) => //= H. apply/esym/negbTE. by rewrite -leqNgt (leq_trans _ H) // leq_sub2l // ltnW.
  Qed.
  Lemma left_cut j : left_out t eps' k j = left_out s em (minn k p) j.
  Proof.
    rewrite {1}/left_out cutE /left_out below_min lt_maxr.
    case: (ltnP j (n - p)) => /= _; first by rewrite e0' !orbT.
    case: (ltP (s 0 j) eps) => /= _; first by rewrite e0' !orbT.
    by rewrite orbF.
  Qed.
  Lemma kept_cut j : ~~ left_out s em (minn k p) j -> t 0 j = s 0 j /\ ~~ left_out s eps p j.
  Proof.
    move=> H. have F : left_out s eps p j = false.
      apply/negbTE/negP => G. move/negP: H; apply. rewrite /left_out below_min lt_maxr. by case/orP: G => ->; rewrite ?orbT.
    by rewrite cutE F.
  Qed.
  Lemma separated_cut : separated em (minn k p) s -> separated eps' k t.
  Proof.
    move=> S i j Hi Hj. rewrite !cutE. case Fj : (left_out s eps p j); first by right.
    move/negbT: Fj. rewrite negb_or -leqNgt -leNgt => /andP[Hj' Sj].
    have Hi2 : (i < n - minn k p)%N by rewrite below_min Hi.
    have Hj2 : (n - minn k p <= j)%N by rewrite leqNgt below_min negb_or -!leqNgt Hj Hj'.
    case: (S i j Hi2 Hj2) => [L|]; last first.
      rewrite lt_maxr => /orP[L|L]; last by right. by move: (lt_le_trans L Sj); rewrite ltxx.
    left. case: ifP => _ //. exact: lt_le_trans e0 Sj.
  Qed.

  (** A function of the components kept. *)
  Lemma cut_fun (g : R -> R) :
    primal_param eps' Hk t V *m diag_mx (map_mx g (primal_vals eps' Hk t)) *m (primal_param eps' Hk t V)^T =
    primal_param em Hm s V *m diag_mx (map_mx g (primal_vals em Hm s)) *m (primal_param em Hm s V)^T.
  Proof.
    rewrite !kept_fun. apply/matrixP => a b. rewrite !mxE. rewrite (eq_bigl _ _ (fun j => congr1 negb (left_cut j))).
    apply: eq_bigr => j Hj. by rewrite (proj1 (kept_cut Hj)).
  Qed.
  Lemma cut_sum (F : R -> R) : \sum_i F (primal_vals eps' Hk t 0 i) = \sum_i F (primal_vals em Hm s 0 i).
  Proof.
    have S1 : forall e q (Hq : (q <= n)%N) (r : 'rV[R]_n),
        \sum_i F (primal_vals e Hq r 0 i) = \sum_(j | ~~ left_out r e q j) F (r 0 j).
      move=> e q Hq r. rewrite -(nystrom_reindex r e Hq (fun j => F (r 0 j))). by apply: eq_bigr => i _; rewrite !mxE.
    rewrite !S1 (eq_bigl _ _ (fun j => congr1 negb (left_cut j))). apply: eq_bigr => j Hj. by rewrite (proj1 (kept_cut Hj)).
  Qed.
  Lemma cut_dim : nystrom_dim eps' (eigs_values Hk t) = nystrom_dim em (eigs_values Hm s).
  Proof.
    have := cut_sum (fun=> 1). rewrite !sumr_const !card_ord => /eqP. by rewrite eqr_nat => /eqP.
  Qed.

  (** The kernels with the sample. *)
  Variables (m : nat) (x : 'M[R]_(m, n)).
  Let x' := nystrom_oos eps Hp s V x *m N^T.
  Lemma oos_cut : x' = x *m (primal_param eps Hp s V *m diag_mx (map_mx (fun=> 1) (primal_vals eps Hp s)) *m (primal_param eps Hp s V)^T).
  Proof.
    rewrite kept_fun. apply/matrixP => a b. rewrite [LHS]mxE.
    transitivity (\sum_i (x *m V) a (top Hp (tnth (in_tuple (kept eps (eigs_values Hp s))) i)) *
                        V b (top Hp (tnth (in_tuple (kept eps (eigs_values Hp s))) i))).
      apply: eq_bigr => i _. rewrite oos_entry [(_^T) _ _]mxE /N /nystrom_sample sample_phi_entry.
      set l := tnth _ i. have P : 0 < s 0 (top Hp l).
        have := kept_ge (eps:=eps) (l:=eigs_values Hp s) i. rewrite -/l mxE. exact: lt_le_trans.
      rewrite [eigs_values _ _ _ _]mxE [eigs_vectors _ _ _ _]mxE -mulrA. congr (_ * _).
      by rewrite mulrC mulfK // sqrtr_eq0 -ltNge.
    rewrite (nystrom_reindex s eps Hp (fun j => (x *m V) a j * V b j)) [RHS]mxE.
    rewrite (eq_bigr (fun j => \sum_c x a c * (1 * V c j * V b j))); last first.
      move=> j _. rewrite mxE big_distrl /=. apply: eq_bigr => c _. by rewrite mul1r mulrA.
    rewrite exchange_big /=. apply: eq_bigr => c _. by rewrite !mxE big_distrr.
  Qed.

  Lemma cut_vector j : ~~ left_out s eps p j ->
    (primal_param eps Hp s V *m diag_mx (map_mx (fun=> 1) (primal_vals eps Hp s)) *m (primal_param eps Hp s V)^T) *m col j V = col j V.
  Proof.
    move=> Hj. rewrite kept_fun. apply/colP => a. rewrite [LHS]mxE.
    transitivity (\sum_(i | ~~ left_out s eps p i) V a i * (V^T *m V) i j).
      transitivity (\sum_b \sum_(i | ~~ left_out s eps p i) V a i * (V b i * V b j)).
        apply: eq_bigr => b _. rewrite !mxE big_distrl /=. by apply: eq_bigr => i _; rewrite mul1r mulrA.
      rewrite exchange_big /=. apply: eq_bigr => i _. rewrite [(_ *m _) _ _]mxE big_distrr /=.
      by apply: eq_bigr => b _; rewrite mxE.
    case: (E) => -> _. rewrite (bigD1 j) //= mxE eqxx mulr1 big1 ?addr0 ?mxE // => i /andP[_ ij].
    by rewrite mxE (negbTE ij) mulr0.
  Qed.
  Lemma oos_scores j : ~~ left_out s eps p j -> x' *m col j V = x *m col j V.
  Proof. by move=> Hj; rewrite oos_cut -mulmxA cut_vector. Qed.

  Lemma oos_param : x' *m primal_param em Hm s V = x *m primal_param em Hm s V.
  Proof.
    apply/matrixP => a i. have e0m : eps <= em by rewrite le_maxr lexx.
    set j := top Hm (tnth (in_tuple (kept em (eigs_values Hm s))) i).
    have Ej : ~~ left_out s em (minn k p) j.
      have G : em <= s 0 j by have := kept_ge (eps:=em) (l:=eigs_values Hm s) i; rewrite mxE.
      rewrite /left_out negb_or -leNgt G andbT -leqNgt /j /top /=. exact: leq_sub2l.
    have := congr1 (fun M : 'cV[R]_m => M a 0) (oos_scores (proj2 (kept_cut Ej))). rewrite /= !mxE => Q.
    transitivity (\sum_c x' a c * col j V c 0); first by apply: eq_bigr => c _; rewrite !mxE.
    rewrite Q. by apply: eq_bigr => c _; rewrite !mxE.
  Qed.
End Cut.

Section Compare.
  Variables (R : rcfType) (n : nat) (K : 'M[R]_n) (s : 'rV[R]_n) (V : 'M[R]_n).
  Hypothesis E : eigendecomposition K s V.
  Variables (eps : R) (p : nat) (Hp : (p <= n)%N).
  Hypothesis e0 : 0 < eps.
  Let N := nystrom_sample eps Hp s V.
  Variables (s' : 'rV[R]_n) (V' : 'M[R]_n).
  Hypothesis E' : eigendecomposition (N *m N^T) s' V'.
  Variables (eps' : R) (k : nat) (Hk : (k <= n)%N) (Hm : (minn k p <= n)%N).
  Hypothesis e0' : 0 < eps'.
  Let em := Num.max eps eps'.

  Theorem compare_values : s' = cut eps p s.
  Proof. exact: same_values E' (cut_decomposition E Hp e0). Qed.
  Theorem compare_dim : nystrom_dim eps' (eigs_values Hk s') = nystrom_dim em (eigs_values Hm s).
  Proof. rewrite compare_values. exact: cut_dim. Qed.
  Theorem compare_entry (i : 'I_(nystrom_dim eps' (eigs_values Hk s'))) (j : 'I_(nystrom_dim em (eigs_values Hm s))) :
    i = j :> nat -> dual_vals eps' Hk s' 0 i = dual_vals em Hm s 0 j.
  Proof.
    move=> ij. rewrite !mxE. congr (_ * _). set a := top Hk _. set b := top Hm _.
    have ab : a = b :> nat.
      rewrite /a /b /top /=. congr (_ - (_).+1)%N. by rewrite (kept_first E') (kept_first E).
    have Ea : a = b by apply: val_inj.
    rewrite Ea compare_values. apply: (proj1 (kept_cut (k:=k) (eps':=eps') _)).
    have G : em <= s 0 b by have := kept_ge (eps:=em) (l:=eigs_values Hm s) j; rewrite mxE.
    rewrite /left_out negb_or -leNgt G andbT -leqNgt /b /top /=. exact: leq_sub2l.
  Qed.
  Theorem compare_variance : model_variance (dual_vals eps' Hk s') = model_variance (dual_vals em Hm s).
  Proof.
    rewrite compare_values. have C := @cut_sum R n s eps p eps' k Hk Hm e0' (fun v => n%:R^-1 * v).
    rewrite /model_variance. transitivity (\sum_i n%:R^-1 * primal_vals eps' Hk (cut eps p s) 0 i); first by apply: eq_bigr => i _; rewrite !mxE.
    rewrite C. by apply: eq_bigr => i _; rewrite !mxE.
  Qed.

  Hypothesis S : separated em (minn k p) s.
  Lemma compare_gram (g : R -> R) m m' (x : 'M[R]_(m, n)) (y : 'M[R]_(m', n)) :
    ((nystrom_oos eps Hp s V x *m N^T) *m primal_param eps' Hk s' V' *m diag_mx (map_mx g (primal_vals eps' Hk s'))) *m
    ((nystrom_oos eps Hp s V y *m N^T) *m primal_param eps' Hk s' V' *m diag_mx (map_mx g (primal_vals eps' Hk s')))^T =
    (x *m primal_param em Hm s V *m diag_mx (map_mx g (primal_vals em Hm s))) *m
    (y *m primal_param em Hm s V *m diag_mx (map_mx g (primal_vals em Hm s)))^T.
  Proof.
    have C := cut_decomposition E Hp e0. have S' := separated_cut e0 e0' S.
    rewrite gram_kept -(same_kept C E' Hk S') (cut_fun s V eps Hk Hm e0') -gram_kept.
    by rewrite !(oos_param E Hp e0 _ Hm).
  Qed.
  Theorem compare_latent m m' (x : 'M[R]_(m, n)) (y : 'M[R]_(m', n)) :
    h_dual (dual_param eps' Hk s' V') (dual_vals eps' Hk s') (nystrom_oos eps Hp s V x *m N^T) *m
    (h_dual (dual_param eps' Hk s' V') (dual_vals eps' Hk s') (nystrom_oos eps Hp s V y *m N^T))^T =
    h_dual (dual_param em Hm s V) (dual_vals em Hm s) x *m (h_dual (dual_param em Hm s V) (dual_vals em Hm s) y)^T.
  Proof. rewrite /dual_vals !h_dual_form. exact: compare_gram. Qed.
  Theorem compare_forward m m' (x : 'M[R]_(m, n)) (y : 'M[R]_(m', n)) :
    forward_dual (dual_param eps' Hk s' V') (nystrom_oos eps Hp s V x *m N^T) *m
    (forward_dual (dual_param eps' Hk s' V') (nystrom_oos eps Hp s V y *m N^T))^T =
    forward_dual (dual_param em Hm s V) x *m (forward_dual (dual_param em Hm s V) y)^T.
  Proof.
    have D : forall q (v : 'rV[R]_q) r (M : 'M[R]_(r, q)), M = M *m diag_mx (map_mx (fun=> 1) v).
      move=> q v r M. apply/matrixP => a b. by rewrite mul_mx_diag !mxE mulr1.
    rewrite /forward_dual.
    rewrite (D _ (primal_vals eps' Hk s') _ (_ *m dual_param eps' Hk s' V')) (D _ (primal_vals eps' Hk s') _ (nystrom_oos eps Hp s V y *m N^T *m _)).
    rewrite (D _ (primal_vals em Hm s) _ (x *m _)) (D _ (primal_vals em Hm s) _ (y *m _)).
    exact: compare_gram.
  Qed.
End Compare.
