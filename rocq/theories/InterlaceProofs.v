(** Eigenvalues of parts of a matrix, of larger matrices and of nearby matrices: proofs. *)
From mathcomp Require Import all_ssreflect all_algebra.
From Verif Require Import NystromM MatrixSpec NystromMProofs KpcaM KpcaSpec KpcaMProofs KpcaOptimal KpcaMore StableSpec.
Set Implicit Arguments. Unset Strict Implicit. Unset Printing Implicit Defensive.
Import GRing.Theory Num.Theory Order.POrderTheory Order.TotalTheory.
Local Open Scope ring_scope.

Section Norm.
  Variable R : rcfType.
  Definition sqn n (x : 'cV[R]_n) : R := \sum_i x i 0 ^+ 2.
  Lemma sqnE n (x : 'cV[R]_n) : sqn x = (x^T *m x) 0 0.
  Proof. by rewrite mxE; apply: eq_bigr => i _; rewrite [(_^T) _ _]mxE expr2. Qed.
  Lemma sqn_ge0 n (x : 'cV[R]_n) : 0 <= sqn x.
  Proof. by apply: sumr_ge0 => i _; exact: sqr_ge0. Qed.
  Lemma sqn_gt0 n (x : 'cV[R]_n) : x != 0 -> 0 < sqn x.
  Proof.
    move=> N. rewrite lt_def sqn_ge0 andbT. apply: contraNneq N => H. apply/eqP/matrixP => i j. rewrite ord1 [RHS]mxE.
    have /eqP := psumr_eq0P (fun i _ => sqr_ge0 (x i 0)) H (i := i) isT. by rewrite sqrf_eq0 => /eqP.
  Qed.
  Lemma sqn_iso n m (A : 'M[R]_(n, m)) (x : 'cV[R]_m) : A^T *m A = 1%:M -> sqn (A *m x) = sqn x.
  Proof. by move=> O; rewrite !sqnE trmx_mul -mulmxA (mulmxA A^T) O mul1mx. Qed.
  Lemma orth_tr n (V : 'M[R]_n) : V^T *m V = 1%:M -> (V^T)^T *m V^T = 1%:M.
  Proof. by move=> H; rewrite trmxK (mulmx1C H). Qed.

  (** Fewer linear conditions than unknowns. *)
  Lemma solution p q (B : 'M[R]_(p, q)) : (q < p)%N -> exists2 x : 'cV[R]_p, x != 0 & B^T *m x = 0.
  Proof.
    move=> L. have : kermx B != 0.
      rewrite -mxrank_eq0 mxrank_ker subn_eq0 -ltnNge. exact: leq_ltn_trans (rank_leq_col B) L.
    move=> /rowV0Pn [v /sub_kermxP H N]. exists v^T; first by rewrite trmx_eq0.
    by rewrite -trmx_mul H trmx0.
  Qed.
End Norm.

Section Fischer.
  Variables (R : rcfType) (m n : nat) (M : 'M[R]_m) (N : 'M[R]_n) (s : 'rV[R]_m) (t : 'rV[R]_n) (V : 'M[R]_m) (W : 'M[R]_n).
  Hypothesis EM : eigendecomposition M s V.
  Hypothesis EN : eigendecomposition N t W.
  Variables (A : 'M[R]_(n, m)) (i : 'I_m) (j : 'I_n).
  Hypothesis OA : A^T *m A = 1%:M.
  Hypothesis Q : forall x, qform M x <= qform N (A *m x).
  Hypothesis D : (n + i <= m + j)%N.

  Let low (l : 'I_i) : 'I_m := widen_ord (ltnW (ltn_ord i)) l.
  Lemma high_bound (l : 'I_(n - j.+1)) : (l + j.+1 < n)%N.
  Proof. by rewrite addnC -ltn_subRL. Qed.
  Let high (l : 'I_(n - j.+1)) : 'I_n := Ordinal (high_bound l).
  Let conds : 'M[R]_(m, i + (n - j.+1)) := row_mx (colsub low V) (colsub high (A^T *m W)).

  Lemma few : (i + (n - j.+1) < m)%N.
  Proof.
    have H : (j.+1 <= n)%N by exact: ltn_ord. rewrite -(ltn_add2r j.+1) -addnA subnK // addnC addnS ltnS. exact: D.
  Qed.
  Lemma fischer : s 0 i <= t 0 j.
  Proof.
    have [x X0] := solution conds few. rewrite tr_row_mx mul_col_mx -[0]vsubmxK => /eq_col_mx. rewrite !linear0 => - [H1 H2].
    have Z1 (l : 'I_m) : (l < i)%N -> (V^T *m x) l 0 = 0.
      move=> L. have := congr1 (fun B : 'cV[R]_i => B (Ordinal L) 0) H1. rewrite !mxE => /(etrans _); apply. apply: eq_bigr => a _.
      by rewrite !mxE; congr (V _ _ * _); apply: val_inj.
    have Z2 (l : 'I_n) : (j < l)%N -> (W^T *m (A *m x)) l 0 = 0.
      move=> L. have L' : (l - j.+1 < n - j.+1)%N by rewrite ltn_sub2r //; exact: leq_ltn_trans L _.
      have := congr1 (fun B : 'cV[R]_(n - j.+1) => B (Ordinal L') 0) H2. rewrite mulmxA -[W^T *m A]trmxK trmx_mul trmxK.
      move: (A^T *m W) H2 => B H2. rewrite !mxE => /(etrans _); apply. apply: eq_bigr => a _. rewrite !mxE; congr (_ * _).
      by congr (B a _); apply: val_inj; rewrite /= subnK.
    have L1 : s 0 i * sqn x <= qform M x.
      have -> : sqn x = sqn (V^T *m x) by rewrite sqn_iso //; apply: orth_tr; case: EM.
      rewrite (qform_sum EM) /sqn mulr_sumr. apply: ler_sum => l _.
      case: (ltnP l i) => [/Z1 ->|L]; first by rewrite expr0n /= !mulr0.
      by apply: ler_wpmul2r; [exact: sqr_ge0 | case: EM => _ [_]; apply].
    have L2 : qform N (A *m x) <= t 0 j * sqn x.
      have -> : sqn x = sqn (W^T *m (A *m x)) by rewrite sqn_iso ?sqn_iso //; apply: orth_tr; case: EN.
      rewrite (qform_sum EN) /sqn mulr_sumr. apply: ler_sum => l _.
      case: (ltnP j l) => [/Z2 ->|L]; first by rewrite expr0n /= !mulr0.
      by apply: ler_wpmul2r; [exact: sqr_ge0 | case: EN => _ [_]; apply].
    have := le_trans L1 (le_trans (Q x) L2). by rewrite ler_pmul2r // sqn_gt0.
  Qed.
End Fischer.

(** The opposite of a matrix. *)
Section Opposite.
  Variables (R : rcfType) (n : nat) (K : 'M[R]_n) (s : 'rV[R]_n) (V : 'M[R]_n).
  Hypothesis E : eigendecomposition K s V.
  Lemma opposite : eigendecomposition (- K) (\row_j - s 0 (rev_ord j)) (\matrix_(a, j) V a (rev_ord j)).
  Proof.
    case: E => O [H S]. split; last split.
    - apply/matrixP => a b. have := congr1 (fun B : 'M[R]_n => B (rev_ord a) (rev_ord b)) O.
      rewrite !mxE (inj_eq rev_ord_inj) => <-. by apply: eq_bigr => c _; rewrite !mxE.
    - apply/matrixP => a b. have := congr1 (fun B : 'M[R]_n => B a (rev_ord b)) H. rewrite !mul_diag_entry.
      rewrite [LHS]mxE [X in _ -> X = _]mxE => G. rewrite !mxE mulrN -G -sumrN.
      by apply: eq_bigr => c _; rewrite !mxE mulNr.
    - move=> a b ab. rewrite !mxE ler_opp2. apply: S. by rewrite /= leq_sub2l.
  Qed.
  (** Adding a multiple of the identity. *)
  Lemma shifted c : eigendecomposition (K + c *: 1%:M) (\row_j (s 0 j + c)) V.
  Proof.
    case: E => O [H S]. split=> //. split; last by move=> a b ab; rewrite !mxE ler_add2r; apply: S.
    rewrite mulmxDl -scalemxAl mul1mx H. apply/matrixP => a b. rewrite [RHS]mul_diag_entry mxE mul_diag_entry !mxE. by rewrite mulrDr [c * _]mulrC.
  Qed.
  Lemma scaled c : 0 <= c -> eigendecomposition (c *: K) (c *: s) V.
  Proof.
    move=> C. case: E => O [H S]. split=> //. split; last by move=> a b ab; rewrite !mxE; apply: ler_wpmul2l => //; apply: S.
    rewrite -scalemxAl H. apply/matrixP => a b. rewrite [RHS]mul_diag_entry mxE mul_diag_entry !mxE. by rewrite mulrCA.
  Qed.
End Opposite.

Section Ranks.
  Variables (R : rcfType) (m n : nat) (M : 'M[R]_m) (N : 'M[R]_n) (s : 'rV[R]_m) (t : 'rV[R]_n) (V : 'M[R]_m) (W : 'M[R]_n).
  Hypothesis EM : eigendecomposition M s V.
  Hypothesis EN : eigendecomposition N t W.
  Variable A : 'M[R]_(n, m).
  Hypothesis OA : A^T *m A = 1%:M.
  Lemma from_above k (Hm : (k <= m)%N) (Hn : (k <= n)%N) : (forall x, qform M x <= qform N (A *m x)) ->
    forall i, eigs_values Hm s 0 i <= eigs_values Hn t 0 i.
  Proof.
    move=> Q i. rewrite !mxE. apply: (fischer EM EN OA Q). rewrite /= addnBA ?(leq_trans (ltn_ord i)) // addnBA ?(leq_trans (ltn_ord i)) //.
    by rewrite addnC.
  Qed.
  Lemma from_below (i : 'I_m) (j : 'I_n) : (forall x, qform N (A *m x) <= qform M x) ->
    (n + i <= m + j)%N -> eigs_values (leqnn n) t 0 j <= eigs_values (leqnn m) s 0 i.
  Proof.
    move=> Q D. have Q' x : qform (- M) x <= qform (- N) (A *m x).
      have F q (B : 'M[R]_q) y : qform (- B) y = - qform B y by rewrite /qform mulmxN mulNmx mxE.
      by rewrite !F ler_opp2.
    have := fischer (opposite EM) (opposite EN) OA Q' (i := i) (j := j) D. rewrite !mxE ler_opp2.
    by congr (_ <= _); congr (_ 0 _); apply: val_inj.
  Qed.
End Ranks.

Section Gains.
  Variables (R : rcfType) (m n : nat) (s : 'rV[R]_m) (t : 'rV[R]_n) (eps : R) (k : nat) (Hm : (k <= m)%N) (Hn : (k <= n)%N).
  Hypothesis L : forall i, eigs_values Hm s 0 i <= eigs_values Hn t 0 i.
  Lemma dim_grows : (nystrom_dim eps (eigs_values Hm s) <= nystrom_dim eps (eigs_values Hn t))%N.
  Proof.
    rewrite /nystrom_dim /kept !size_filter. apply: sub_count => i /=. rewrite -!leNgt => H. exact: le_trans H (L i).
  Qed.
  Lemma variance_grows : 0 <= eps -> model_variance (primal_vals eps Hm s) <= model_variance (primal_vals eps Hn t).
  Proof.
    move=> E0. rewrite !variance_gain. apply: ler_sum => i _. rewrite /gain -(ranked_ord s Hm i) -(ranked_ord t Hn i).
    case: ltP => H1; case: ltP => H2 //; first exact: le_trans E0 H2.
    by move: (lt_le_trans H2 (le_trans H1 (L i))); rewrite ltxx.
  Qed.
End Gains.

Section Choice.
  Variables (R : rcfType) (m n : nat) (f : 'I_m -> 'I_n).
  Hypothesis F : injective f.
  Definition embed : 'M[R]_(n, m) := \matrix_(a, b) (a == f b)%:R.
  Lemma embed_iso : embed^T *m embed = 1%:M.
  Proof.
    apply/matrixP => a b. rewrite !mxE (bigD1 (f a)) //= !mxE eqxx mul1r (inj_eq F) big1 ?addr0 // => c N.
    by rewrite !mxE (negbTE N) mul0r.
  Qed.
  Lemma embed_mul q (B : 'M[R]_(q, n)) : B *m embed = \matrix_(a, b) B a (f b).
  Proof.
    apply/matrixP => a b. rewrite !mxE (bigD1 (f b)) //= !mxE eqxx mulr1 big1 ?addr0 // => c N.
    by rewrite !mxE (negbTE N) mulr0.
  Qed.
  Lemma embed_tr q (B : 'M[R]_(n, q)) : embed^T *m B = \matrix_(a, b) B (f a) b.
  Proof.
    rewrite -[LHS]trmxK trmx_mul trmxK embed_mul. by apply/matrixP => a b; rewrite !mxE.
  Qed.
  Lemma embed_form (K : 'M[R]_n) x : qform K (embed *m x) = qform (between f K) x.
  Proof.
    rewrite /qform trmx_mul -!mulmxA (mulmxA K) embed_mul (mulmxA embed^T) embed_tr.
    by congr ((_ *m (_ *m _)) 0 0); apply/matrixP => a b; rewrite !mxE.
  Qed.
End Choice.

Section Near.
  Variables (R : rcfType) (n : nat) (K K' : 'M[R]_n) (s s' : 'rV[R]_n) (V V' : 'M[R]_n).
  Hypothesis E : eigendecomposition K s V.
  Hypothesis E' : eigendecomposition K' s' V'.
  Lemma iso1 : (1%:M : 'M[R]_n)^T *m 1%:M = 1%:M.
  Proof. by rewrite trmx1 mulmx1. Qed.
  Lemma larger k (Hk : (k <= n)%N) : psd (K' - K) -> forall i, eigs_values Hk s 0 i <= eigs_values Hk s' 0 i.
  Proof.
    move=> P i. apply: (from_above E E' iso1) => x. rewrite mul1mx -subr_ge0.
    have := P x. rewrite /qform mulmxBr mulmxBl. move: (x^T *m K *m x) (x^T *m K' *m x) => a b. by rewrite !mxE.
  Qed.
  Lemma shift_above d k (Hk : (k <= n)%N) : (forall x, qform (K' - K) x <= d * sqn x) ->
    forall i, eigs_values Hk s' 0 i <= eigs_values Hk s 0 i + d.
  Proof.
    move=> B i. have -> : eigs_values Hk s 0 i + d = eigs_values Hk (\row_j (s 0 j + d)) 0 i by rewrite !mxE.
    apply: (from_above E' (shifted E d) iso1) => x. rewrite mul1mx.
    have -> : qform (K + d *: 1%:M) x = qform K x + d * sqn x.
      by rewrite /qform sqnE mulmxDr mulmxDl -scalemxAr mulmx1 -scalemxAl; move: (x^T *m K *m x) (x^T *m x) => a c; rewrite !mxE.
    have <- : qform K x + qform (K' - K) x = qform K' x.
      by rewrite /qform mulmxBr mulmxBl; move: (x^T *m K *m x) (x^T *m K' *m x) => a b; rewrite !mxE addrC subrK.
    by rewrite ler_add2l.
  Qed.
End Near.

Section Entries.
  Variables (R : rcfType) (n : nat).
  Lemma halves (a e q : R) : a * (e / 2%:R * q) + e / 2%:R * (a * q) = a * e * q.
  Proof.
    have N2 : 2%:R != 0 :> R by rewrite pnatr_eq0.
    rewrite [e / _ * (_ * _)]mulrCA -mulrDr -mulrDl -mulrA. congr (_ * (_ * _)). by rewrite -mulrDr -mulr2n -[_ *+ 2]mulr_natr mulVf ?mulr1.
  Qed.
  Lemma entry_bound (B : 'M[R]_n) e : (forall i j, `|B i j| <= e) -> forall x, `|qform B x| <= n%:R * e * sqn x.
  Proof.
    move=> H x. have -> : qform B x = \sum_j \sum_i x i 0 * B i j * x j 0.
      rewrite /qform mxE; apply: eq_bigr => j _. rewrite [(_ *m B) _ _]mxE mulr_suml; apply: eq_bigr => i _. by rewrite [x^T _ _]mxE.
    have T : forall i j, `|x i 0 * B i j * x j 0| <= e * (x i 0 ^+ 2 + x j 0 ^+ 2) / 2%:R.
      move=> i j. rewrite !normrM mulrAC mulrC -mulrA.
      have E0 : 0 <= e by exact: le_trans (normr_ge0 _) (H i j).
      have P : `|x i 0| * `|x j 0| <= (x i 0 ^+ 2 + x j 0 ^+ 2) / 2%:R.
        rewrite ler_pdivl_mulr ?ltr0n // -subr_ge0 -(real_normK (num_real (x i 0))) -(real_normK (num_real (x j 0))).
        have -> : `|x i 0| ^+ 2 + `|x j 0| ^+ 2 - `|x i 0| * `|x j 0| * 2%:R = (`|x i 0| - `|x j 0|) ^+ 2.
          by rewrite sqrrB mulr_natr addrAC.
        exact: sqr_ge0.
      by apply: ler_pmul => //; rewrite mulr_ge0.
    apply: le_trans (ler_norm_sum _ _ _) _.
    have Q : forall j, `|\sum_i x i 0 * B i j * x j 0| <= \sum_i e * (x i 0 ^+ 2 + x j 0 ^+ 2) / 2%:R.
      move=> j; apply: le_trans (ler_norm_sum _ _ _) _. apply: ler_sum => i _. exact: T.
    apply: le_trans (ler_sum _ (fun j _ => Q j)) _.
    have -> : \sum_j \sum_i e * (x i 0 ^+ 2 + x j 0 ^+ 2) / 2%:R = n%:R * e * sqn x; last by [].
    rewrite (eq_bigr (fun j => e / 2%:R * sqn x + e / 2%:R * (n%:R * x j 0 ^+ 2))).
      rewrite big_split /= sumr_const card_ord -mulr_sumr -mulr_sumr -/(sqn x).
      by rewrite -[_ *+ n]mulr_natl halves.
    move=> j _. rewrite (eq_bigr (fun i => e / 2%:R * x i 0 ^+ 2 + e / 2%:R * x j 0 ^+ 2)); last first.
      by move=> i _; rewrite mulrDr mulrDl ![e * _ / _]mulrAC.
    by rewrite big_split /= -mulr_sumr sumr_const card_ord -[_ *+ n]mulr_natl mulrCA.
  Qed.
End Entries.

(** The components that are kept are the first ones. *)
Section Prefix.
  Lemma filter_prefix (P : pred nat) k : (forall i j, (i <= j)%N -> (j < k)%N -> P j -> P i) ->
    [seq i <- iota 0 k | P i] = iota 0 (size [seq i <- iota 0 k | P i]).
  Proof.
    elim: k => [//|k IH] H. rewrite -addn1 iotaD filter_cat /= add0n. case: ifP => Pk.
      have -> : [seq i <- iota 0 k | P i] = iota 0 k.
        apply/all_filterP/allP => i. rewrite mem_iota add0n => /andP [_ L]. exact: H (ltnW L) (ltnSn k) Pk.
      by rewrite size_cat size_iota /= iotaD.
    by rewrite cats0 -IH // => i j ij jk; apply: H => //; exact: ltnW.
  Qed.
  Variables (R : rcfType) (n : nat) (K : 'M[R]_n) (s : 'rV[R]_n) (V : 'M[R]_n).
  Hypothesis E : eigendecomposition K s V.
  Variables (eps : R) (k : nat) (Hk : (k <= n)%N).
  Lemma kept_first (i : 'I_(nystrom_dim eps (eigs_values Hk s))) : val (tnth (in_tuple (kept eps (eigs_values Hk s))) i) = i.
  Proof.
    have S : forall a b : 'I_n, (a <= b)%N -> s 0 a <= s 0 b by case: E => _ [_].
    have F : [seq i <- iota 0 k | ~~ (ranked s i < eps)] = iota 0 (nystrom_dim eps (eigs_values Hk s)).
      rewrite dim_nat; apply: filter_prefix => a b ab bk. rewrite -!leNgt => H.
      exact: le_trans H (ranked_le S ab (leq_trans bk Hk)).
    rewrite (tnth_nth (tnth (in_tuple (kept eps (eigs_values Hk s))) i)) /=.
    rewrite -[LHS](nth_map _ 0%N val) ?ltn_ord //. by rewrite kept_nat F nth_iota // ltn_ord.
  Qed.
  Lemma prune_first (i : 'I_(nystrom_dim eps (eigs_values Hk s))) : prune_values eps (eigs_values Hk s) 0 i = ranked s i.
  Proof. by rewrite mxE ranked_ord kept_first. Qed.
  Lemma dim_le : (nystrom_dim eps (eigs_values Hk s) <= k)%N.
  Proof. by rewrite /nystrom_dim /kept size_filter (leq_trans (count_size _ _)) // size_enum_ord. Qed.
End Prefix.

Section Stated.
  Variables (R : rcfType).
  Lemma ranked_full n (s : 'rV[R]_n) (i : 'I_n) : eigs_values (leqnn n) s 0 i = ranked s i.
  Proof. exact: ranked_ord. Qed.

  (** Some of the points. *)
  Section Selection.
    Variables (m n : nat) (f : 'I_m -> 'I_n) (K : 'M[R]_n) (s : 'rV[R]_n) (V : 'M[R]_n) (s' : 'rV[R]_m) (V' : 'M[R]_m).
    Hypothesis F : injective f.
    Hypothesis E : eigendecomposition K s V.
    Hypothesis E' : eigendecomposition (between f K) s' V'.
    Lemma part_below k (Hm : (k <= m)%N) (Hn : (k <= n)%N) i : eigs_values Hm s' 0 i <= eigs_values Hn s 0 i.
    Proof. by apply: (from_above E' E (embed_iso R F)) => x; rewrite embed_form. Qed.
    Lemma part_ranked i : (i < m)%N -> ranked s' i <= ranked s i.
    Proof.
      move=> im. have mn : (m <= n)%N by have := leq_card f F; rewrite !card_ord.
      by have := part_below (leqnn m) mn (Ordinal im); rewrite !ranked_ord.
    Qed.
    Lemma part_above i j : (i < m)%N -> (j < n)%N -> (n + i <= m + j)%N -> ranked s j <= ranked s' i.
    Proof.
      move=> im jn D. have := from_below E' E (embed_iso R F) (i := Ordinal im) (j := Ordinal jn).
      rewrite !ranked_full /=. apply=> //. by move=> x; rewrite embed_form.
    Qed.
  End Selection.

  Lemma moment_part m n d (f : 'I_m -> 'I_n) (Phi : 'M[R]_(n, d)) : injective f -> (0 < m)%N ->
    psd (n%:R *: second_moment Phi - m%:R *: second_moment (rows_of f Phi)).
  Proof.
    move=> F m0. have n0 : (0 < n)%N by case: (f (Ordinal m0)) => a /(leq_ltn_trans (leq0n a)).
    rewrite /second_moment !scalerA !divff ?pnatr_eq0 -?lt0n // !scale1r => x.
    have G p (B : 'M[R]_(p, d)) : qform (B^T *m B) x = sqn (B *m x).
      by rewrite /qform sqnE trmx_mul !mulmxA.
    have -> : qform (Phi^T *m Phi - (rows_of f Phi)^T *m rows_of f Phi) x = sqn (Phi *m x) - sqn (rows_of f Phi *m x).
      rewrite -!G /qform mulmxBr mulmxBl. move: (x^T *m _ *m x) (x^T *m ((rows_of f Phi)^T *m _) *m x) => a b. by rewrite !mxE.
    have -> : sqn (rows_of f Phi *m x) = \sum_(i in f @: [set: 'I_m]) (Phi *m x) i 0 ^+ 2.
      rewrite big_imset /=; last by move=> a c _ _; exact: F. rewrite /sqn [RHS](eq_bigl xpredT); last by move=> a; rewrite inE.
      apply: eq_bigr => a _. by rewrite [X in X ^+ 2]mxE [X in _ = X ^+ 2]mxE; congr (_ ^+ 2); apply: eq_bigr => c _; rewrite mxE.
    rewrite /sqn subr_ge0 [X in _ <= X](bigID (fun i => i \in f @: [set: 'I_m])) /= ler_addl. by apply: sumr_ge0 => i _; exact: sqr_ge0.
  Qed.
End Stated.

Section Values.
  Variables (R : rcfType).
  Lemma dual_value n (K : 'M[R]_n) (s : 'rV[R]_n) V eps k (Hk : (k <= n)%N) (i : 'I_(nystrom_dim eps (eigs_values Hk s))) :
    eigendecomposition K s V -> n%:R * dual_vals eps Hk s 0 i = ranked s i.
  Proof.
    move=> E. rewrite /dual_vals mxE (prune_first E) mulrA divff ?mul1r // pnatr_eq0 -lt0n.
    exact: leq_trans (leq_ltn_trans (leq0n i) (ltn_ord i)) (leq_trans (dim_le s eps Hk) Hk).
  Qed.
  Lemma dual_variance_ge0 n (s : 'rV[R]_n) eps k (Hk : (k <= n)%N) : 0 <= eps -> 0 <= model_variance (dual_vals eps Hk s).
  Proof.
    move=> E0. apply: sumr_ge0 => i _. rewrite /dual_vals mxE mulr_ge0 ?invr_ge0 ?ler0n // mxE. apply: le_trans E0 _. exact: kept_ge.
  Qed.
  Lemma dual_variance n (s : 'rV[R]_n) eps k (Hk : (k <= n)%N) : (0 < n)%N ->
    n%:R * model_variance (dual_vals eps Hk s) = model_variance (primal_vals eps Hk s).
  Proof.
    move=> n0. rewrite /model_variance mulr_sumr; apply: eq_bigr => i _. rewrite /dual_vals mxE mulrA divff ?mul1r // pnatr_eq0.
    by rewrite -lt0n.
  Qed.
  Lemma ranked_scale n (s : 'rV[R]_n) c (i : 'I_n) : eigs_values (leqnn n) (c *: s) 0 i = c * ranked s i.
  Proof. by rewrite -ranked_full !mxE. Qed.
  Lemma ranked_index n (s : 'rV[R]_n) eps k (Hk : (k <= n)%N) (i : 'I_(nystrom_dim eps (eigs_values Hk s))) : (i < k)%N.
  Proof. exact: leq_trans (ltn_ord i) (dim_le s eps Hk). Qed.

  Lemma close_values n (K K' : 'M[R]_n) s s' V V' e : eigendecomposition K s V -> eigendecomposition K' s' V' ->
    (forall i j, `|K' i j - K i j| <= e) -> forall i, (i < n)%N -> `|ranked s' i - ranked s i| <= n%:R * e.
  Proof.
    have H (L L' : 'M[R]_n) (t t' : 'rV[R]_n) W W' : eigendecomposition L t W -> eigendecomposition L' t' W' ->
        (forall i j, `|L' i j - L i j| <= e) -> forall i, (i < n)%N -> ranked t' i <= ranked t i + n%:R * e.
      move=> D D' B i L0. have := @shift_above _ _ _ _ _ _ _ _ D D' (n%:R * e) n (leqnn n) _ (Ordinal L0). rewrite !ranked_ord; apply=> x.
      apply: le_trans (ler_norm _) _. apply: entry_bound => a b. by rewrite !mxE.
    move=> E E' B i L0. rewrite ler_norml; apply/andP; split; last by rewrite ler_subl_addl; apply: (H _ _ _ _ _ _ E E' B i L0).
    by rewrite ler_oppl opprB ler_subl_addl; apply: (H _ _ _ _ _ _ E' E _ i L0) => a b; rewrite distrC.
  Qed.
End Values.
