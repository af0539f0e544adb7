(** The Nystrom feature map: proofs. *)
From mathcomp Require Import all_ssreflect all_algebra.
From Verif Require Import NystromM MatrixSpec.
Set Implicit Arguments. Unset Strict Implicit. Unset Printing Implicit Defensive.
Import GRing.Theory Num.Theory Order.POrderTheory Order.TotalTheory.
Local Open Scope ring_scope.

(** * Spectral decompositions *)
Section Spectral.
  Variables (R : realFieldType) (n : nat).
  Variables (K : 'M[R]_n) (s : 'rV[R]_n) (V : 'M[R]_n).
  Hypothesis E : eigendecomposition K s V.

  Lemma orth_rows : V *m V^T = 1%:M.
  Proof. case: E => H _. exact: mulmx1C H. Qed.
  Lemma spectral_mx : K = V *m diag_mx s *m V^T.
  Proof. case: E => _ [H _]. by rewrite -H -mulmxA orth_rows mulmx1. Qed.
  Lemma mul_diag_entry p q (A : 'M[R]_(p, q)) (v : 'rV[R]_q) a i : (A *m diag_mx v) a i = A a i * v 0 i.
  Proof. by rewrite mul_mx_diag mxE. Qed.
  Lemma spectral_entry a b : K a b = \sum_j s 0 j * V a j * V b j.
  Proof.
    rewrite {1}spectral_mx mxE. apply: eq_bigr => j _. rewrite mul_diag_entry mxE.
    by rewrite [V a j * _]mulrC.
  Qed.
  Lemma row_norm a : \sum_j V a j ^+ 2 = 1.
  Proof.
    have := congr1 (fun M : 'M[R]_n => M a a) orth_rows. rewrite mxE [RHS]mxE eqxx => H. rewrite -[RHS]H.
    apply: eq_bigr => j _. by rewrite mxE expr2.
  Qed.
  Lemma qform_sum (c : 'cV[R]_n) : qform K c = \sum_j s 0 j * (V^T *m c) j 0 ^+ 2.
  Proof.
    rewrite /qform {1}spectral_mx !mulmxA.
    have -> : c^T *m V *m diag_mx s *m V^T *m c = (V^T *m c)^T *m diag_mx s *m (V^T *m c).
      by rewrite trmx_mul trmxK !mulmxA.
    rewrite mxE. apply: eq_bigr => j _. by rewrite mul_diag_entry [(_^T) _ _]mxE expr2 mulrAC mulrC mulrA.
  Qed.
  Lemma psd_spectrum : psd K -> forall j, 0 <= s 0 j.
  Proof.
    move=> P j. have := P (col j V). rewrite qform_sum.
    have -> : V^T *m col j V = delta_mx j 0.
      case: E => H _. by rewrite colE mulmxA H mul1mx.
    rewrite (bigD1 j) //= big1 ?addr0 => [|i ne]; last by rewrite mxE (negbTE ne) expr0n mulr0.
    by rewrite mxE !eqxx expr1n mulr1.
  Qed.
  Lemma spectrum_psd : (forall j, 0 <= s 0 j) -> psd K.
  Proof. move=> H c. rewrite qform_sum. apply: sumr_ge0 => j _. by rewrite mulr_ge0 ?sqr_ge0. Qed.
End Spectral.

Section Proofs.
  Variables (R : rcfType) (n : nat).

  Lemma prune_sum (eps : R) k (l : 'rV[R]_k) (F : 'I_k -> R) :
    \sum_(i < nystrom_dim eps l) F (tnth (in_tuple (kept eps l)) i) = \sum_(i | ~~ (l 0 i < eps)) F i.
  Proof. by rewrite -(big_tnth _ _ _ xpredT F) /kept big_filter big_enum_cond. Qed.
  Lemma kept_ge (eps : R) k (l : 'rV[R]_k) i : eps <= l 0 (tnth (in_tuple (kept eps l)) i).
  Proof.
    have: tnth (in_tuple (kept eps l)) i \in kept eps l by exact: mem_tnth.
    by rewrite mem_filter -leNgt => /andP[].
  Qed.
  Lemma sample_phi_entry (eps : R) k (l : 'rV[R]_k) (H : 'M[R]_(n, k)) a i :
    sample_phi eps l H a i = H a (tnth (in_tuple (kept eps l)) i) * Num.sqrt (l 0 (tnth (in_tuple (kept eps l)) i)).
  Proof. by rewrite /sample_phi mul_diag_entry !mxE. Qed.
  Lemma sample_phi_gram (eps : R) k (l : 'rV[R]_k) (H : 'M[R]_(n, k)) a b : 0 <= eps ->
    (sample_phi eps l H *m (sample_phi eps l H)^T) a b = \sum_(i | ~~ (l 0 i < eps)) l 0 i * H a i * H b i.
  Proof.
    move=> He. rewrite -prune_sum mxE. apply: eq_bigr => i _. rewrite [(_^T) _ _]mxE !sample_phi_entry.
    set j := tnth _ i. have Pj : 0 <= l 0 j by apply: le_trans He (kept_ge _).
    by rewrite mulrACA -expr2 sqr_sqrtr // mulrC mulrA.
  Qed.

  Lemma top_inj k (Hk : (k <= n)%N) : injective (top Hk).
  Proof. move=> i j /rev_ord_inj /(congr1 val) /= H. exact: val_inj. Qed.
  Lemma top_image k (Hk : (k <= n)%N) (P : pred 'I_n) j :
    (j \in [set top Hk i | i in [pred i | P (top Hk i)]]) = (n - k <= j)%N && P j.
  Proof.
    apply/imsetP/andP => [[i Hi ->]|[Hj Pj]].
      split; last exact: Hi. rewrite /= leq_sub2l //; exact: (ltn_ord i).
    have Hn := ltn_ord j. have Lt : (n - j.+1 < k)%N.
      by rewrite subnS prednK ?subn_gt0 // leq_subLR -leq_subLR leq_subCl.
    exists (Ordinal Lt); last first.
      apply: val_inj => /=. by rewrite subnSK // subKn // ltnW.
    have -> : Ordinal Lt \in [pred i | P (top Hk i)] = P j; last by [].
    rewrite inE. congr (P _). apply: val_inj => /=. by rewrite subnSK // subKn // ltnW.
  Qed.

  Variables (K : 'M[R]_n) (s : 'rV[R]_n) (V : 'M[R]_n).
  Hypothesis E : eigendecomposition K s V.

  (** Eigenvalues left out: not among the [k] largest, or under the threshold. *)
  Definition left_out (eps : R) (k : nat) (j : 'I_n) : bool := (j < n - k)%N || (s 0 j < eps).

  Lemma nystrom_reindex (eps : R) k (Hk : (k <= n)%N) (F : 'I_n -> R) :
    \sum_i F (top Hk (tnth (in_tuple (kept eps (eigs_values Hk s))) i)) = \sum_(j | ~~ left_out eps k j) F j.
  Proof.
    rewrite (prune_sum eps (eigs_values Hk s) (fun i => F (top Hk i))).
    rewrite [RHS](eq_bigl (mem [set top Hk i | i in [pred i | ~~ (s 0 (top Hk i) < eps)]])); last first.
      move=> j. by rewrite /= (top_image Hk (fun j => ~~ (s 0 j < eps))) /left_out negb_or -leqNgt.
    rewrite big_imset /=; last by move=> i j _ _; exact: top_inj.
    apply: eq_bigl => i. by rewrite ?inE !mxE.
  Qed.
  Lemma nystrom_gram (eps : R) k (Hk : (k <= n)%N) a b : 0 <= eps ->
    (nystrom_sample eps Hk s V *m (nystrom_sample eps Hk s V)^T) a b =
    \sum_(j | ~~ left_out eps k j) s 0 j * V a j * V b j.
  Proof.
    move=> He. rewrite /nystrom_sample sample_phi_gram // -(nystrom_reindex eps Hk) -prune_sum.
    apply: eq_bigr => i _. by rewrite !mxE.
  Qed.

  (** The kernel matrix of the features differs from the base kernel matrix by no more
      than the largest eigenvalue left out. *)
  Theorem nystrom_error (eps beta : R) k (Hk : (k <= n)%N) : 0 <= eps -> 0 <= beta ->
    (forall j, left_out eps k j -> `|s 0 j| <= beta) ->
    forall a b, `|K a b - (nystrom_sample eps Hk s V *m (nystrom_sample eps Hk s V)^T) a b| <= beta.
  Proof.
    move=> He H0 Hb a b. rewrite nystrom_gram // (spectral_entry E) (bigID (left_out eps k)) /= addrK.
    apply: le_trans (ler_norm_sum _ _ _) _.
    have H2 : \sum_j (V a j ^+ 2 + V b j ^+ 2) = 1 + 1 by rewrite big_split /= !(row_norm E).
    apply: (@le_trans _ _ (\sum_j beta * ((V a j ^+ 2 + V b j ^+ 2) / 2%:R))); last first.
      by rewrite -big_distrr /= -big_distrl /= H2 divff ?mulr1 // -(natrD _ 1 1) pnatr_eq0.
    rewrite [X in _ <= X](bigID (left_out eps k)) /= -[X in X <= _]addr0. apply: ler_add; last first.
      apply: sumr_ge0 => j _. rewrite mulr_ge0 // divr_ge0 ?ler0n //. exact: addr_ge0 (sqr_ge0 _) (sqr_ge0 _).
    apply: ler_sum => j Hj. rewrite -mulrA normrM.
    apply: ler_pmul => //; [exact: Hb|].
    rewrite ler_pdivl_mulr ?ltr0n // normrM -(real_normK (num_real (V a j))) -(real_normK (num_real (V b j))).
    have := sqr_ge0 (`|V a j| - `|V b j|). by rewrite sqrrB addrAC subr_ge0 -mulr_natr.
  Qed.

  (** Exact when what is left out is zero. *)
  Theorem nystrom_exact (eps : R) k (Hk : (k <= n)%N) : 0 <= eps ->
    (forall j, left_out eps k j -> s 0 j = 0) ->
    nystrom_sample eps Hk s V *m (nystrom_sample eps Hk s V)^T = K.
  Proof.
    move=> He Hz. apply/matrixP => a b. apply/eqP. rewrite eq_sym -subr_eq0 -normr_le0.
    apply: (nystrom_error Hk He (lexx 0)) => j /Hz ->. by rewrite normr0.
  Qed.

  (** The features computed out of sample on the sample points are the sample features. *)
  Theorem nystrom_consistent (eps : R) k (Hk : (k <= n)%N) : 0 < eps ->
    nystrom_oos eps Hk s V K = nystrom_sample eps Hk s V.
  Proof.
    move=> He. apply/matrixP => a i. rewrite /nystrom_oos /oos_phi mul_diag_entry /nystrom_sample sample_phi_entry.
    set l := eigs_values Hk s. set t := tnth _ i.
    have Pt : 0 < l 0 t by apply: lt_le_trans He (kept_ge _).
    have -> : (K *m prune_vectors eps l (eigs_vectors Hk V)) a i = l 0 t * eigs_vectors Hk V a t.
      case: E => _ [H _]. have := congr1 (fun M : 'M[R]_n => M a (top Hk t)) H.
      rewrite mul_diag_entry mxE => Hs. rewrite mxE mxE.
      under eq_bigr do rewrite mxE mxE. by rewrite Hs !mxE mulrC.
    rewrite !mxE -/t. rewrite -/(l) in Pt.
    have Es : s 0 (top Hk t) = l 0 t by rewrite mxE.
    rewrite [X in _ * X]/=. rewrite Es. set r := Num.sqrt (l 0 t).
    have Er : l 0 t = r * r by rewrite -expr2 sqr_sqrtr ?ltW.
    have Nr : r != 0 by rewrite sqrtr_eq0 -ltNge.
    by rewrite Er mulrAC mulfK // mulrC.
  Qed.

  (** The kernel values with the sample are those of the base kernel when every
      eigenvalue is kept. *)
  Theorem nystrom_oos_exact (eps : R) k (Hk : (k <= n)%N) m (Kx : 'M[R]_(m, n)) : 0 < eps ->
    (forall j, ~~ left_out eps k j) ->
    nystrom_oos eps Hk s V Kx *m (nystrom_sample eps Hk s V)^T = Kx.
  Proof.
    move=> He Ha. apply/matrixP => x b. rewrite mxE.
    transitivity (\sum_i (Kx *m V) x (top Hk (tnth (in_tuple (kept eps (eigs_values Hk s))) i)) *
                        V b (top Hk (tnth (in_tuple (kept eps (eigs_values Hk s))) i))).
      apply: eq_bigr => i _. rewrite [(_^T) _ _]mxE /nystrom_sample sample_phi_entry /nystrom_oos /oos_phi mul_diag_entry.
      set l := eigs_values Hk s. set t := tnth _ i.
      have Pt : 0 < l 0 t by apply: lt_le_trans He (kept_ge _).
      have -> : (Kx *m prune_vectors eps l (eigs_vectors Hk V)) x i = (Kx *m V) x (top Hk t).
        rewrite !mxE. apply: eq_bigr => j _. by rewrite !mxE.
      rewrite [map_mx _ _ _ _]mxE [prune_values _ _ _ _]mxE -/t [eigs_vectors _ _ _ _]mxE.
      have Nr : Num.sqrt (l 0 t) != 0 by rewrite sqrtr_eq0 -ltNge.
      by rewrite -mulrA; congr (_ * _); rewrite mulrCA mulVf // mulr1.
    rewrite (nystrom_reindex eps Hk (fun j => (Kx *m V) x j * V b j)).
    rewrite (eq_bigl xpredT); last by move=> j; rewrite Ha.
    transitivity ((Kx *m V *m V^T) x b); last by rewrite -mulmxA (orth_rows E) mulmx1.
    rewrite [RHS]mxE. apply: eq_bigr => j _. by rewrite [(_^T) _ _]mxE.
  Qed.

  (** As quadratic forms, the Nystrom kernel is between zero and a positive base kernel. *)
  Theorem nystrom_below (eps : R) k (Hk : (k <= n)%N) : 0 <= eps -> psd K ->
    forall c, 0 <= qform (nystrom_sample eps Hk s V *m (nystrom_sample eps Hk s V)^T) c <= qform K c.
  Proof.
    move=> He P c. set G := _ *m _^T.
    have -> : qform G c = \sum_(j | ~~ left_out eps k j) s 0 j * (V^T *m c) j 0 ^+ 2.
      rewrite /qform -mulmxA mxE.
      transitivity (\sum_a c a 0 * \sum_b (\sum_(j | ~~ left_out eps k j) s 0 j * V a j * V b j) * c b 0).
        apply: eq_bigr => a _. rewrite mxE. congr (_ * _). rewrite mxE. apply: eq_bigr => b _. by rewrite nystrom_gram.
      transitivity (\sum_a \sum_(j | ~~ left_out eps k j) \sum_b c a 0 * (s 0 j * V a j * V b j * c b 0)).
        apply: eq_bigr => a _. rewrite exchange_big big_distrr /=. apply: eq_bigr => b _.
        by rewrite big_distrl big_distrr.
      rewrite exchange_big /=. apply: eq_bigr => j _.
      transitivity (\sum_a (s 0 j * (V^T *m c) j 0) * (V a j * c a 0)).
        apply: eq_bigr => a _. rewrite -big_distrr /=. rewrite [(V^T *m c) j 0]mxE.
        transitivity (c a 0 * (s 0 j * V a j * \sum_b V b j * c b 0)).
          congr (_ * _). rewrite big_distrr /=. apply: eq_bigr => b _. by rewrite mulrA.
        under [X in _ = _ * X * _]eq_bigr do rewrite mxE. rewrite mulrC -!mulrA; congr (_ * _). exact: mulrCA.
      rewrite -big_distrr /= -mulrA; congr (_ * _). rewrite expr2; congr (_ * _).
      rewrite mxE. apply: eq_bigr => a _. by rewrite mxE.
    have S := psd_spectrum E P.
    apply/andP; split; first by apply: sumr_ge0 => j _; rewrite mulr_ge0 ?sqr_ge0.
    rewrite (qform_sum E) [X in _ <= X](bigID (left_out eps k)) /= -[X in X <= _]add0r.
    apply: ler_add => //. apply: sumr_ge0 => j _. by rewrite mulr_ge0 ?sqr_ge0.
  Qed.

  (** A negative eigenvalue is lost. *)
  Theorem nystrom_indefinite (eps : R) k (Hk : (k <= n)%N) j : 0 <= eps -> s 0 j < 0 ->
    nystrom_sample eps Hk s V *m (nystrom_sample eps Hk s V)^T <> K.
  Proof.
    move=> He Hj H. have P : psd K.
      move: H; move: (nystrom_sample eps Hk s V) => Phi <- c. rewrite /qform.
      have -> : c^T *m (Phi *m Phi^T) *m c = (c^T *m Phi) *m (c^T *m Phi)^T by rewrite trmx_mul trmxK !mulmxA.
      rewrite mxE. apply: sumr_ge0 => i _. by rewrite [(_^T) _ _]mxE -expr2 sqr_ge0.
    by have := psd_spectrum E P j; rewrite leNgt Hj.
  Qed.
End Proofs.

(** A decomposition with a zero, over any field. *)
Section Example.
  Variable R : rcfType.
  Definition ex_values : 'rV[R]_2 := \row_j (j : nat)%:R.
  Lemma ex_decomposition : eigendecomposition (diag_mx ex_values) ex_values 1%:M.
  Proof.
    split; first by rewrite trmx1 mulmx1. split; first by rewrite mulmx1 mul1mx.
    move=> i j Hij. by rewrite !mxE ler_nat.
  Qed.
  Lemma ex_left_out (j : 'I_2) : left_out ex_values (1 / 2%:R) 2 j -> ex_values 0 j = 0.
  Proof.
    rewrite /left_out subnn ltn0 /= mxE => H. case: j H => [[|[|m]] Hm] //=.
    by rewrite mul1r invf_gt1 ?ltr0n // ltNge ler1n.
  Qed.
  Lemma ex_positive : (0 : R) < 1 / 2%:R.
  Proof. by rewrite divr_gt0 ?ltr01 ?ltr0n. Qed.
End Example.
