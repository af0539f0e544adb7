(** A training set that holds every point several times: proofs. *)
From mathcomp Require Import all_ssreflect all_fingroup all_algebra.
From Verif Require Import NystromM MatrixSpec NystromMProofs KpcaM KpcaSpec KpcaMProofs KpcaMore SolverSpec SolverProofs InterlaceProofs.
From Verif Require Import LssvmM LssvmSpec LssvmMProofs StableSpec CenterM RepeatSpec.
Set Implicit Arguments. Unset Strict Implicit. Unset Printing Implicit Defensive.
Import GRing.Theory Num.Theory Order.POrderTheory Order.TotalTheory.
Local Open Scope ring_scope.

Section Copies.
  Variables (R : rcfType) (N n m : nat) (c : 'I_N -> 'I_n).
  Hypothesis C : copies m c.

  Lemma copies_sum (F : 'I_n -> R) : \sum_a F (c a) = m%:R * \sum_i F i.
  Proof.
    rewrite (partition_big c xpredT) //= big_distrr /=. apply: eq_bigr => i _.
    rewrite (eq_bigr (fun=> F i)) => [|a /eqP -> //]. by rewrite sumr_const C mulr_natl.
  Qed.
  Lemma copies_card : N = (m * n)%N.
  Proof.
    rewrite -[LHS]card_ord -sum1_card (partition_big c xpredT) //=.
    rewrite (eq_bigr (fun=> m)) => [|i _]; last by rewrite sum1_card C. by rewrite sum_nat_const card_ord mulnC.
  Qed.

  (** The points as a matrix. *)
  Definition picks : 'M[R]_(N, n) := \matrix_(a, i) (c a == i)%:R.
  Lemma picks_sum (F : 'I_n -> R) a : \sum_i picks a i * F i = F (c a).
  Proof.
    rewrite (bigD1 (c a)) //= mxE eqxx mul1r big1 ?addr0 // => i ic. by rewrite mxE eq_sym (negbTE ic) mul0r.
  Qed.
  Lemma picks_rows q (Y : 'M[R]_(n, q)) : rows_of c Y = picks *m Y.
  Proof. apply/matrixP => a j. by rewrite !mxE (picks_sum (fun i => Y i j)). Qed.
  Lemma picks_columns p (k : 'M[R]_(p, n)) : columns_of c k = k *m picks^T.
  Proof.
    apply/matrixP => a j. rewrite !mxE -(picks_sum (fun i => k a i)). by apply: eq_bigr => i _; rewrite [(_^T) _ _]mxE mulrC.
  Qed.
  Lemma picks_between (K : 'M[R]_n) : between c K = picks *m K *m picks^T.
  Proof. rewrite -picks_columns -picks_rows. by apply/matrixP => a b; rewrite !mxE. Qed.
  Lemma picks_gram : picks^T *m picks = m%:R *: 1%:M.
  Proof.
    apply/matrixP => i j. rewrite !mxE.
    transitivity (\sum_a ((c a == i)%:R * (c a == j)%:R : R)); first by apply: eq_bigr => a _; rewrite !mxE.
    rewrite (copies_sum (fun x => (x == i)%:R * (x == j)%:R)). congr (_ * _).
    rewrite (bigD1 i) //= eqxx mul1r big1 ?addr0 // => x xi. by rewrite (negbTE xi) mul0r.
  Qed.
  Lemma rows_second d (Phi : 'M[R]_(n, d)) : (0 < m)%N -> second_moment (rows_of c Phi) = second_moment Phi.
  Proof.
    move=> m0. rewrite /second_moment picks_rows trmx_mul -mulmxA [picks^T *m _]mulmxA picks_gram.
    rewrite -scalemxAl mul1mx -scalemxAr scalerA. congr (_ *: _).
    by rewrite {1}copies_card natrM invfM mulrAC mulVf ?mul1r // pnatr_eq0 -lt0n.
  Qed.
  Lemma between_copies_psd (K : 'M[R]_n) : psd K -> psd (between c K).
  Proof.
    move=> P e. have := P (picks^T *m e). rewrite /qform picks_between trmx_mul trmxK !mulmxA. by [].
  Qed.
End Copies.

(** LS-SVM. *)
Section Lssvm.
  Variables (R : rcfType) (N n m q : nat) (c : 'I_N -> 'I_n).
  Hypothesis C : copies m c.
  Hypothesis m0 : (0 < m)%N.
  Variables (K : 'M[R]_n) (g : R).
  Hypotheses (P : psd K) (G : 0 < g) (n0 : (0 < n)%N).
  Variables (Y h : 'M[R]_(n, q)) (b : 'rV[R]_q).
  Hypothesis S : solve_dual K g Y = Some (h, b).
  Lemma m_neq0 : (m%:R : R) != 0. Proof. by rewrite pnatr_eq0 -lt0n. Qed.
  Theorem repeat_solve : solve_dual (between c K) (m%:R * g) (rows_of c Y) = Some (m%:R^-1 *: rows_of c h, b).
  Proof.
    have N0 : (0 < N)%N by rewrite (copies_card C) muln_gt0 m0.
    have G' : 0 < m%:R * g by rewrite mulr_gt0 // ltr0n.
    have [h1 [b1 [S1 [E B]]]] := solve_dual_kkt P G n0 Y. move: S1; rewrite S => [[Eh Eb]]. move: E B; rewrite -Eh -Eb => E B {h1 b1 Eh Eb}.
    apply: (solve_dual_unique (between_copies_psd c P) G' N0). split.
    - have A : between c K *m (m%:R^-1 *: rows_of c h) = rows_of c (K *m h).
        rewrite picks_between !picks_rows -scalemxAr -[picks R c *m K *m _ *m _]mulmxA [_^T *m _]mulmxA (picks_gram R C).
        by rewrite -scalemxAl mul1mx -scalemxAr scalerA mulVf ?m_neq0 // scale1r mulmxA.
      rewrite A. apply/matrixP => a j. have := congr1 (fun M : 'M[R]_(n, q) => M (c a) j) E. rewrite !mxE => ->.
      by rewrite mulrACA divff ?m_neq0 // mul1r.
    - move=> j. rewrite (eq_bigr (fun a => m%:R^-1 * h (c a) j)) => [|a _]; last by rewrite !mxE.
      by rewrite -big_distrr /= (copies_sum C (fun i => h i j)) B !mulr0.
  Qed.
  Theorem repeat_predict (kappa : R) p (k : 'M[R]_(p, n)) :
    predict_dual kappa (m%:R^-1 *: rows_of c h) b (columns_of c k) = predict_dual kappa h b k.
  Proof.
    rewrite /predict_dual picks_columns picks_rows -scalemxAr -mulmxA [_^T *m _]mulmxA (picks_gram R C).
    by rewrite -scalemxAl mul1mx -scalemxAr scalerA mulVf ?m_neq0 // scale1r.
  Qed.
End Lssvm.

(** Centering. *)
Section Center.
  Variables (R : rcfType) (N n m : nat) (c : 'I_N -> 'I_n).
  Hypothesis C : copies m c.
  Hypothesis m0 : (0 < m)%N.
  Lemma copies_mean (F : 'I_n -> R) : (N%:R : R)^-1 * (\sum_a F (c a)) = n%:R^-1 * \sum_i F i.
  Proof.
    rewrite (copies_sum C) {1}(copies_card C) natrM invfM mulrA. congr (_ * _).
    by rewrite mulrAC mulVf ?mul1r // pnatr_eq0 -lt0n.
  Qed.
  Lemma columns_means p (k : 'M[R]_(p, n)) : row_means (columns_of c k) = row_means k.
  Proof.
    apply/matrixP => i j. rewrite !mxE -copies_mean. congr (_ * _). by apply: eq_bigr => a _; rewrite mxE.
  Qed.
  Lemma between_means (K : 'M[R]_n) a : row_means (between c K) a 0 = row_means K (c a) 0.
  Proof. rewrite !mxE -copies_mean. congr (_ * _). by apply: eq_bigr => b _; rewrite mxE. Qed.
  Lemma between_mean (K : 'M[R]_n) : total_mean (between c K) = total_mean K.
  Proof.
    rewrite /total_mean -copies_mean. congr (_ * _). apply: eq_bigr => a _. exact: between_means.
  Qed.
  Theorem center_between (K : 'M[R]_n) : center_sample (between c K) = between c (center_sample K).
  Proof.
    apply/matrixP => a b. rewrite [LHS]mxE [RHS]mxE [RHS]mxE !between_means between_mean. by rewrite mxE.
  Qed.
  Theorem center_columns (K : 'M[R]_n) p (k : 'M[R]_(p, n)) :
    center_oos (between c K) (columns_of c k) = columns_of c (center_oos K k).
  Proof.
    apply/matrixP => a b. rewrite [LHS]mxE [RHS]mxE [RHS]mxE columns_means between_means between_mean. by rewrite mxE.
  Qed.
End Center.

(** Eigenvalues. *)
Section Spectrum.
  Variables (R : rcfType) (N n m : nat) (c : 'I_N -> 'I_n).
  Hypothesis C : copies m c.
  Hypothesis m0 : (0 < m)%N.
  Variables (K : 'M[R]_n) (s : 'rV[R]_n) (V : 'M[R]_n) (s' : 'rV[R]_N) (V' : 'M[R]_N).
  Hypotheses (E : eigendecomposition K s V) (E' : eigendecomposition (between c K) s' V').
  Let B : 'M[R]_(N, n) := picks R c.
  Let mR : R := m%:R.
  Lemma mR0 : mR != 0. Proof. by rewrite pnatr_eq0 -lt0n. Qed.
  Lemma mR_gt0 : 0 < mR. Proof. by rewrite ltr0n. Qed.
  Let t : 'rV[R]_n := mR *: s.

  Lemma diag_rows p q (v : 'rV[R]_p) (W : 'M[R]_(p, q)) (f : R -> R) : f 0 = 0 ->
    diag_mx v *m W = 0 -> diag_mx (map_mx f v) *m W = 0.
  Proof.
    move=> F H. apply/matrixP => i j. have := congr1 (fun M : 'M[R]_(p, q) => M i j) H.
    rewrite !mul_diag_mx !mxE => /eqP. rewrite mulf_eq0 => /orP[/eqP -> | /eqP ->]; by rewrite ?F ?mul0r ?mulr0.
  Qed.
  Lemma repeat_fun (f : R -> R) : f 0 = 0 ->
    V' *m diag_mx (map_mx f s') *m V'^T = mR^-1 *: (B *m (V *m diag_mx (map_mx f t) *m V^T) *m B^T).
  Proof.
    move=> F. have O := orth_rows E. have O' := orth_rows E'. have SK' := sym E'.
    have BB : B^T *m B = mR *: 1%:M := picks_gram R C.
    case: (E) => [Ho [He _]]. case: (E') => [Ho' [He' _]].
    have L : V'^T *m between c K = diag_mx s' *m V'^T.
      by rewrite -[LHS]trmxK trmx_mul SK' trmxK He' trmx_mul tr_diag_mx.
    have EB : between c K = B *m K *m B^T := picks_between c K.
    have KB : between c K *m B = mR *: (B *m K).
      by rewrite EB -mulmxA BB -scalemxAr mulmx1.
    pose Q := V'^T *m B *m V.
    have Hs : diag_mx s' *m Q = Q *m diag_mx t.
      by rewrite /Q !mulmxA -L -[V'^T *m _ *m B]mulmxA KB -scalemxAr -!scalemxAl -!mulmxA He /t !linearZ.
    have Hf : diag_mx (map_mx f s') *m Q = Q *m diag_mx (map_mx f t).
      apply/matrixP => i j. rewrite mul_diag_mx mul_mx_diag !mxE.
      have := congr1 (fun A : 'M[R]_(N, n) => A i j) Hs. rewrite mul_diag_mx mul_mx_diag !mxE.
      move: (\sum_k _) => x H. case: (eqVneq x 0) => [->|Nx]; first by rewrite mulr0 mul0r.
      have -> : s' 0 i = mR * s 0 j; last by rewrite mulrC.
      by apply: (mulfI Nx); rewrite mulrC H.
    have Z : diag_mx s' *m (V'^T *m (1%:M - mR^-1 *: (B *m B^T))) = 0.
      rewrite mulmxA -L -mulmxA mulmxBr mulmx1 -scalemxAr mulmxA KB -scalemxAl scalerA mulVf ?mR0 // scale1r EB.
      by rewrite subrr mulmx0.
    have := diag_rows F Z. rewrite mulmxBr mulmx1 mulmxBr => /eqP. rewrite subr_eq0 => /eqP Zf.
    rewrite -mulmxA Zf -!scalemxAr. congr (_ *: _).
    rewrite !mulmxA. congr (_ *m _).
    transitivity (V' *m (diag_mx (map_mx f s') *m Q) *m V^T).
      by rewrite /Q !mulmxA -[_ *m V *m V^T]mulmxA O mulmx1.
    by rewrite Hf /Q !mulmxA O' mul1mx.
  Qed.
  Lemma repeat_count (P : pred R) : ~~ P 0 -> #|[pred j | P (s' 0 j)]| = #|[pred j | P (t 0 j)]|.
  Proof.
    move=> P0. case: (E) => [Ho _]. case: (E') => [Ho' _]. apply/eqP. rewrite -(eqr_nat R).
    rewrite -(count_trace s' P Ho') -(count_trace t P Ho) repeat_fun; last by rewrite (negbTE P0).
    have BB : B^T *m B = mR *: 1%:M := picks_gram R C.
    rewrite mxtraceZ mxtrace_mulC !mulmxA BB -!scalemxAl mul1mx mxtraceZ mulrA mulVf ?mul1r //. exact: mR0.
  Qed.
End Spectrum.

(** The [i]-th largest value and the number of values that are not smaller. *)
Section Rank.
  Variables (R : rcfType) (n : nat) (s : 'rV[R]_n).
  Hypothesis A : forall a b : 'I_n, (a <= b)%N -> s 0 a <= s 0 b.
  Lemma rank_count (i : nat) (x : R) : (i < n)%N -> (x <= ranked s i) = (i < #|[pred j | (x <= s 0%R j)%R]|)%N.
  Proof.
    move=> Li. rewrite /ranked (insubT (fun i => (i < n)%N) Li). set r := rev_ord _. have Er : (r = n - i.+1 :> nat)%N by [].
    apply/idP/idP => [H|].
      apply: (@leq_trans #|[pred j : 'I_n | (r <= j)%N]|); last first.
        apply: subset_leq_card. apply/subsetP => j. rewrite !inE => rj. exact: le_trans H (A rj).
      have I : injective (fun a : 'I_i.+1 => rev_ord (widen_ord Li a)).
        by move=> a b /rev_ord_inj /(congr1 val) /= ?; exact: val_inj.
      rewrite -[X in (X <= _)%N](card_ord i.+1) -(card_imset predT I). apply: subset_leq_card.
      apply/subsetP => j /imsetP[a _ ->]. rewrite inE /=. by rewrite leq_sub2l // -ltnS.
    apply: contraLR. rewrite -ltNge -leqNgt => H.
    apply: (@leq_trans #|[pred j : 'I_n | (r < j)%N]|).
      apply: subset_leq_card. apply/subsetP => j. rewrite !inE => xj. rewrite ltnNge. apply/negP => jr.
      by move: (le_lt_trans (le_trans xj (A jr)) H); rewrite ltxx.
    have I : injective (fun a : 'I_i => rev_ord (widen_ord (ltnW Li) a)).
      by move=> a b /rev_ord_inj /(congr1 val) /= ?; exact: val_inj.
    rewrite -[X in (_ <= X)%N](card_ord i) -(card_imset predT I). apply: subset_leq_card.
    apply/subsetP => j. rewrite inE Er => rj. apply/imsetP.
    have Lj : (n - j.+1 < i)%N.
      move: rj. by rewrite !subnSK // !leq_subLR addnC.
    exists (Ordinal Lj) => //. apply: val_inj => /=. by rewrite subnSK // subKn // ltnW.
  Qed.
End Rank.

(** What is kept under separation. *)
Section Threshold.
  Variables (R : rcfType) (n : nat) (s : 'rV[R]_n) (V : 'M[R]_n) (eps : R) (k : nat) (Hk : (k <= n)%N).
  Hypothesis A : forall a b : 'I_n, (a <= b)%N -> s 0 a <= s 0 b.
  Hypothesis k0 : (0 < k)%N.
  Definition threshold : R := Num.max eps (ranked s k.-1).
  Lemma last_index : (k.-1 < n)%N. Proof. by rewrite prednK. Qed.
  Lemma last_value : ranked s k.-1 = s 0 (rev_ord (Ordinal last_index)).
  Proof. by rewrite /ranked (insubT (fun i => (i < n)%N) last_index). Qed.
  Lemma last_rev : (rev_ord (Ordinal last_index) = n - k :> nat)%N. Proof. by rewrite /= prednK. Qed.
  Lemma kept_threshold : separated eps k s -> forall j, (~~ NystromMProofs.left_out s eps k j) = (threshold <= s 0 j).
  Proof.
    move=> S j. rewrite /NystromMProofs.left_out negb_or -leqNgt -leNgt /threshold le_maxl last_value. set r := rev_ord _.
    have Er : (r = n - k :> nat)%N := last_rev. rewrite -Er andbC. case: (leP eps (s 0 j)) => He; rewrite ?andTb ?andFb //.
    apply/idP/idP => [|H]; first exact: A. rewrite leqNgt. apply/negP => L. rewrite Er in L.
    have Lr : (n - k <= r)%N by rewrite Er.
    case: (S j r L Lr) => Q; first by move: (lt_le_trans Q H); rewrite ltxx.
    have L2 : (j <= r)%N by rewrite Er ltnW.
    by move: (lt_le_trans (le_lt_trans (A L2) Q) He); rewrite ltxx.
  Qed.
  Lemma threshold_fun (g : R -> R) : separated eps k s ->
    primal_param eps Hk s V *m diag_mx (map_mx g (primal_vals eps Hk s)) *m (primal_param eps Hk s V)^T =
    V *m diag_mx (map_mx (fun v => if threshold <= v then g v else 0) s) *m V^T.
  Proof.
    move=> S. rewrite kept_fun. apply/matrixP => a b. rewrite [LHS]mxE [RHS]mxE [LHS]big_mkcond /=. apply: eq_bigr => j _.
    rewrite kept_threshold // mul_mx_diag !mxE. case: ifP => _; by rewrite ?mulr0 ?mul0r // [V a j * _]mulrC.
  Qed.
End Threshold.

Section Compare.
  Variables (R : rcfType) (N n m : nat) (c : 'I_N -> 'I_n).
  Hypothesis C : copies m c.
  Hypothesis m0 : (0 < m)%N.
  Variables (K : 'M[R]_n) (s : 'rV[R]_n) (V : 'M[R]_n) (s' : 'rV[R]_N) (V' : 'M[R]_N).
  Hypotheses (E : eigendecomposition K s V) (E' : eigendecomposition (between c K) s' V').
  Variables (eps : R) (k : nat) (Hk : (k <= n)%N) (Hk' : (k <= N)%N).
  Hypothesis e0 : 0 < eps.
  Hypothesis k0 : (0 < k)%N.
  Let mR : R := m%:R.
  Let t : 'rV[R]_n := mR *: s.
  Let mp : 0 < mR. Proof. by rewrite ltr0n. Qed.
  Let mn : mR != 0. Proof. by rewrite pnatr_eq0 -lt0n. Qed.
  Let A : forall a b : 'I_n, (a <= b)%N -> s 0 a <= s 0 b. Proof. by case: E => _ [_]. Qed.
  Let A' : forall a b : 'I_N, (a <= b)%N -> s' 0 a <= s' 0 b. Proof. by case: E' => _ [_]. Qed.
  Let At : forall a b : 'I_n, (a <= b)%N -> t 0 a <= t 0 b.
  Proof. move=> a b ab. rewrite !mxE ler_pmul2l //. exact: A. Qed.
  Lemma n_le_N : (n <= N)%N. Proof. by rewrite (copies_card C) leq_pmull. Qed.

  Lemma ranked_t i : ranked t i = mR * ranked s i.
  Proof. rewrite /ranked. case: insub => [j|]; by rewrite ?mxE ?mulr0. Qed.
  Lemma ranked_copy (i : nat) x : (i < n)%N -> 0 < x -> (x <= ranked s' i) = (x <= ranked t i).
  Proof.
    move=> Li x0. rewrite (rank_count A' x (leq_trans Li n_le_N)) (rank_count At x Li).
    by rewrite (repeat_count C m0 E E' (P := fun v => x <= v)) // -ltNge.
  Qed.
  Lemma ranked_eq (i : nat) : (i < n)%N -> 0 < ranked t i \/ 0 < ranked s' i -> ranked s' i = ranked t i.
  Proof.
    move=> Li H. have P : 0 < ranked t i /\ 0 < ranked s' i.
      case: H => H; split=> //; have := ranked_copy Li H; rewrite lexx => Q; apply: lt_le_trans H _; by rewrite ?Q -?Q.
    case: P => [Pt Ps]. apply/eqP. rewrite eq_le. have := ranked_copy Li Pt. have := ranked_copy Li Ps.
    by rewrite !lexx => <- ->.
  Qed.
  Lemma below_copy (i : nat) : (i < n)%N -> (ranked s' i < eps) = (ranked s i < mR^-1 * eps).
  Proof. move=> Li. by rewrite !ltNge (ranked_copy Li e0) ranked_t ler_pdivr_mull. Qed.

  Theorem repeat_dim : nystrom_dim eps (eigs_values Hk' s') = nystrom_dim (mR^-1 * eps) (eigs_values Hk s).
  Proof.
    rewrite !dim_nat. congr size. apply: eq_in_filter => i. rewrite mem_iota add0n /= => Li.
    by rewrite below_copy // (leq_trans Li Hk).
  Qed.
  Theorem repeat_values (i : 'I_(nystrom_dim eps (eigs_values Hk' s'))) (j : 'I_(nystrom_dim (mR^-1 * eps) (eigs_values Hk s))) :
    i = j :> nat -> dual_vals eps Hk' s' 0 i = dual_vals (mR^-1 * eps) Hk s 0 j.
  Proof.
    move=> ij. rewrite ![dual_vals _ _ _ _ _]mxE (prune_first E' i) (prune_first E j) -ij.
    have Li : (i < n)%N by rewrite ij (leq_trans (ranked_index j)).
    have Ge : eps <= ranked s' i.
      rewrite -(prune_first E' i) mxE. exact: (kept_ge (eps:=eps) (l:=eigs_values Hk' s') i).
    rewrite ranked_eq //; last by right; exact: lt_le_trans e0 Ge.
    by rewrite ranked_t {1}(copies_card C) natrM invfM mulrACA mulVf // mul1r.
  Qed.
  Theorem repeat_variance : model_variance (dual_vals eps Hk' s') = model_variance (dual_vals (mR^-1 * eps) Hk s).
  Proof.
    rewrite /model_variance.
    transitivity (\sum_(i < nystrom_dim (mR^-1 * eps) (eigs_values Hk s)) n%:R^-1 * ranked s i); last first.
      by apply: eq_bigr => i _; rewrite [RHS]mxE (prune_first E i).
    rewrite -repeat_dim. apply: eq_bigr => i _.
    have Lj : (i < nystrom_dim (mR^-1 * eps) (eigs_values Hk s))%N by rewrite -repeat_dim ltn_ord.
    rewrite (repeat_values (j := Ordinal Lj)) // [LHS]mxE. by rewrite (prune_first E (Ordinal Lj)).
  Qed.

  Hypothesis S : separated (mR^-1 * eps) k s.
  Lemma separated_t : separated eps k t.
  Proof.
    move=> i j Hi Hj. case: (S Hi Hj) => L; [left|right]; rewrite !mxE; first by rewrite ltr_pmul2l.
    by rewrite -ltr_pdivl_mull.
  Qed.
  Lemma first_left (a : 'I_N) : (a < N - k)%N -> (k < N)%N /\ s' 0 a <= ranked s' k.
  Proof.
    move=> L. have kN : (k < N)%N by rewrite -subn_gt0 (leq_ltn_trans _ L).
    split=> //. rewrite /ranked (insubT (fun i => (i < N)%N) kN). apply: A' => /=. by rewrite subnS -ltnS prednK // subn_gt0.
  Qed.
  Lemma separated_copy : separated eps k s'.
  Proof.
    move=> i j Hi Hj. case: (ltP (s' 0 j) eps) => [|He]; first by right. left. rewrite ltNge. apply/negP => H.
    have [kN Hi2] := first_left Hi. have kN' : (k.-1 < N)%N by rewrite prednK.
    have Hj2 : ranked s' k.-1 <= s' 0 j.
      rewrite /ranked (insubT (fun i => (i < N)%N) kN'). apply: A' => /=. by rewrite prednK.
    have Hk2 : s' 0 j <= ranked s' k := le_trans H Hi2.
    have pk : 0 < s' 0 j := lt_le_trans e0 He.
    case: (ltnP k n) => [kn|nk]; last first.
      have Q : (k < #|[pred a | (s' 0%R j <= s' 0%R a)%R]|)%N by rewrite -(rank_count A').
      move: Q. rewrite (repeat_count C m0 E E' (P := fun v => s' 0 j <= v)) -?ltNge // ltnNge => /negP; apply.
      apply: leq_trans nk. by rewrite -[X in (_ <= X)%N](card_ord n) max_card.
    have kn' : (k.-1 < n)%N by rewrite prednK // ltnW.
    have T1 : s' 0 j <= ranked t k by rewrite -(ranked_copy kn pk).
    have T2 : ranked t k.-1 <= s' 0 j.
      rewrite leNgt. apply/negP => L. have p2 : 0 < ranked t k.-1 := lt_trans pk L.
      have Q : ranked s' k.-1 = ranked t k.-1 by apply: (ranked_eq kn'); left.
      by move: L; rewrite -Q ltNge Hj2.
    move: T1 T2. rewrite /ranked (insubT (fun i => (i < n)%N) kn) (insubT (fun i => (i < n)%N) kn') => T1 T2.
    have L1 : (rev_ord (Sub k kn : 'I_n) < n - k)%N by rewrite /= subnS prednK // subn_gt0.
    have L2 : (n - k <= rev_ord (Sub k.-1 kn' : 'I_n))%N by rewrite /= prednK.
    case: (separated_t L1 L2) => L; first by move: (le_lt_trans (le_trans T2 T1) L); rewrite ltxx.
    have T3 := At (leq_trans (ltnW L1) L2). have T4 := lt_le_trans (le_lt_trans (le_trans T1 T3) L) He. by move: T4; rewrite ltxx.
  Qed.
  Lemma threshold_copy : threshold s' eps k = threshold t eps k.
  Proof.
    rewrite /threshold. have kn : (k.-1 < n)%N by rewrite prednK.
    case: (ltP 0 (ranked t k.-1)) => H; first by rewrite ranked_eq //; left.
    have H' : ranked s' k.-1 <= 0 by rewrite leNgt; apply/negP => P; have Q := ranked_eq kn (or_intror P); move: H; rewrite -Q leNgt P.
    by rewrite (max_idPl (le_trans H (ltW e0))) (max_idPl (le_trans H' (ltW e0))).
  Qed.
  Lemma repeat_kept (g : R -> R) :
    primal_param eps Hk' s' V' *m diag_mx (map_mx g (primal_vals eps Hk' s')) *m (primal_param eps Hk' s' V')^T =
    mR^-1 *: (picks R c *m (primal_param (mR^-1 * eps) Hk s V *m diag_mx (map_mx (fun v => g (mR * v)) (primal_vals (mR^-1 * eps) Hk s)) *m
      (primal_param (mR^-1 * eps) Hk s V)^T) *m (picks R c)^T).
  Proof.
    rewrite (threshold_fun V' Hk' A' k0 g separated_copy) threshold_copy.
    rewrite (repeat_fun C m0 E E'); last by rewrite leNgt /threshold lt_maxr e0.
    rewrite -(threshold_fun V Hk At k0 g separated_t) !kept_fun. congr (_ *: (_ *m _ *m _)).
    apply/matrixP => a b. rewrite [LHS]mxE [RHS]mxE. apply: eq_big => [j|j _]; last by rewrite mxE.
    rewrite /NystromMProofs.left_out mxE. by rewrite -ltr_pdivl_mull.
  Qed.
  Lemma repeat_gram (g : R -> R) p p' (x : 'M[R]_(p, n)) (y : 'M[R]_(p', n)) :
    (columns_of c x *m primal_param eps Hk' s' V' *m diag_mx (map_mx g (primal_vals eps Hk' s'))) *m
    (columns_of c y *m primal_param eps Hk' s' V' *m diag_mx (map_mx g (primal_vals eps Hk' s')))^T =
    mR *: ((x *m primal_param (mR^-1 * eps) Hk s V *m diag_mx (map_mx (fun v => g (mR * v)) (primal_vals (mR^-1 * eps) Hk s))) *m
    (y *m primal_param (mR^-1 * eps) Hk s V *m diag_mx (map_mx (fun v => g (mR * v)) (primal_vals (mR^-1 * eps) Hk s)))^T).
  Proof.
    rewrite !gram_kept (repeat_kept (fun a => g a * g a)) !picks_columns trmx_mul trmxK.
    have BB : (picks R c)^T *m picks R c = mR *: 1%:M := picks_gram R C.
    rewrite -scalemxAr -scalemxAl !mulmxA -[x *m _ *m picks R c]mulmxA BB -scalemxAr mulmx1 -!scalemxAl scalerA mulVf // scale1r.
    by rewrite -[_ *m _ *m picks R c]mulmxA BB -scalemxAr mulmx1 -scalemxAl.
  Qed.
  Theorem repeat_latent p p' (x : 'M[R]_(p, n)) (y : 'M[R]_(p', n)) :
    h_dual (dual_param eps Hk' s' V') (dual_vals eps Hk' s') (columns_of c x) *m
    (h_dual (dual_param eps Hk' s' V') (dual_vals eps Hk' s') (columns_of c y))^T =
    mR *: (h_dual (dual_param (mR^-1 * eps) Hk s V) (dual_vals (mR^-1 * eps) Hk s) x *m
      (h_dual (dual_param (mR^-1 * eps) Hk s V) (dual_vals (mR^-1 * eps) Hk s) y)^T).
  Proof.
    rewrite /dual_vals !h_dual_form repeat_gram. congr (_ *: (_ *m _)).
      congr (_ *m diag_mx _). apply/matrixP => i j. rewrite [LHS]mxE [RHS]mxE. congr (_^-1).
      by rewrite (copies_card C) natrM invfM mulrACA mulVf // mul1r.
    congr (_^T). congr (_ *m diag_mx _). apply/matrixP => i j. rewrite [LHS]mxE [RHS]mxE. congr (_^-1).
    by rewrite (copies_card C) natrM invfM mulrACA mulVf // mul1r.
  Qed.
  Theorem repeat_forward p p' (x : 'M[R]_(p, n)) (y : 'M[R]_(p', n)) :
    forward_dual (dual_param eps Hk' s' V') (columns_of c x) *m (forward_dual (dual_param eps Hk' s' V') (columns_of c y))^T =
    mR *: (forward_dual (dual_param (mR^-1 * eps) Hk s V) x *m (forward_dual (dual_param (mR^-1 * eps) Hk s V) y)^T).
  Proof.
    have D : forall q (v : 'rV[R]_q) r (M : 'M[R]_(r, q)), M *m diag_mx (map_mx (fun=> 1) v) = M.
      move=> q v r M. apply/matrixP => a b. by rewrite mul_mx_diag !mxE mulr1.
    have := repeat_gram (fun=> 1) x y. rewrite !D. by [].
  Qed.
End Compare.
