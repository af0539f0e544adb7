(** Principal components of several views: proofs. *)
From mathcomp Require Import all_ssreflect all_algebra.
From Verif Require Import NystromM MatrixSpec NystromMProofs KpcaM KpcaSpec KpcaMProofs KpcaOptimal KpcaMore StableSpec InterlaceSpec InterlaceProofs ViewsM.
Set Implicit Arguments. Unset Strict Implicit. Unset Printing Implicit Defensive.
Import GRing.Theory Num.Theory Order.POrderTheory Order.TotalTheory.
Local Open Scope ring_scope.

Section Top.
  Variables (R : rcfType) (n : nat) (M : 'M[R]_n) (s : 'rV[R]_n) (V : 'M[R]_n).
  Hypothesis E : eigendecomposition M s V.
  Variables (k : nat) (Hk : (k <= n)%N).
  Let W := eigs_vectors Hk V.
  Lemma top_inj : injective (top Hk).
  Proof.
    move=> a b /(congr1 val) /=. have La := leq_trans (ltn_ord a) Hk. have Lb := leq_trans (ltn_ord b) Hk.
    move=> H. apply: val_inj => /=. apply: succn_inj. by rewrite -(subKn La) -(subKn Lb) H.
  Qed.
  Lemma top_orthonormal : orthonormal W.
  Proof.
    case: E => O _. apply/matrixP => a b. have := congr1 (fun B : 'M[R]_n => B (top Hk a) (top Hk b)) O.
    rewrite !mxE (inj_eq top_inj) => <-. by apply: eq_bigr => c _; rewrite !mxE.
  Qed.
  Lemma top_captured : \tr (W *m W^T *m M) = \sum_(i < k) ranked s i.
  Proof.
    case: E => O [H _]. rewrite -mulmxA mxtrace_mulC -mulmxA.
    have -> : M *m W = W *m diag_mx (eigs_values Hk s).
      apply/matrixP => a b. have := congr1 (fun B : 'M[R]_n => B a (top Hk b)) H. rewrite !mul_diag_entry !mxE => <-.
      by apply: eq_bigr => c _; rewrite !mxE.
    rewrite mulmxA top_orthonormal mul1mx mxtrace_diag. by apply: eq_bigr => i _; rewrite ranked_ord.
  Qed.
  Lemma top_sum : \sum_(j : 'I_n | (n - k <= j)%N) s 0 j = \sum_(i < k) ranked s i.
  Proof.
    rewrite (reindex_inj rev_ord_inj) /=. rewrite [RHS](big_ord_widen_cond _ xpredT (ranked s) Hk) /=.
    apply: eq_big => [i|i _].
    - rewrite -[(i < k)%N]/(i.+1 <= k)%N. have L : (i.+1 <= n)%N by exact: ltn_ord.
      have L' : (i.+1 <= k + n)%N by exact: leq_trans L (leq_addl k n).
      by rewrite leq_subLR addnBA // (leq_subRL _ L') leq_add2r.
    - rewrite /ranked. case: insubP => [j _ Ej|]; last by rewrite ltn_ord. by congr (s 0 (rev_ord _)); apply: val_inj.
  Qed.
End Top.

Section Several.
  Variables (R : rcfType) (n p : nat) (K : 'I_p -> 'M[R]_n) (s : 'rV[R]_n) (V : 'M[R]_n) (t : 'I_p -> 'rV[R]_n) (W : 'I_p -> 'M[R]_n).
  Hypothesis E : eigendecomposition (all_K K) s V.
  Hypothesis F : forall v, eigendecomposition (K v) (t v) (W v).
  Hypothesis P : forall v, psd (K v).

  Lemma qform_sum (I : finType) (Q : pred I) (B : I -> 'M[R]_n) x : qform (\sum_(v | Q v) B v) x = \sum_(v | Q v) qform (B v) x.
  Proof. by rewrite /qform mulmx_sumr mulmx_suml summxE. Qed.
  Lemma rest_psd v : psd (all_K K - K v).
  Proof.
    move=> x. rewrite /all_K (bigD1 v) //= addrAC subrr add0r qform_sum. by apply: sumr_ge0 => u _; exact: P.
  Qed.
  Lemma all_psd : psd (all_K K).
  Proof. move=> x. rewrite qform_sum. by apply: sumr_ge0 => u _; exact: P. Qed.

  (** The largest values of the sum are at most the sums of the largest values. *)
  Lemma sum_ranked k : (k <= n)%N -> \sum_(i < k) ranked s i <= \sum_v \sum_(i < k) ranked (t v) i.
  Proof.
    move=> Hk. rewrite -(top_captured E Hk) /all_K mulmx_sumr raddf_sum /=. apply: ler_sum => v _.
    rewrite -(top_sum (t v) Hk). exact: (best_requested (F v) Hk (top_orthonormal E Hk)).
  Qed.
  Lemma ranked_psd (M : 'M[R]_n) u U : psd M -> eigendecomposition M u U -> forall i, 0 <= ranked u i.
  Proof.
    move=> PM [O [H _]] i. rewrite /ranked. case: insubP => // j _ _.
    have := PM (col (rev_ord j) U). congr (0 <= _). rewrite /qform -mulmxA.
    have -> : M *m col (rev_ord j) U = u 0 (rev_ord j) *: col (rev_ord j) U.
      apply/matrixP => a b. have := congr1 (fun B : 'M[R]_n => B a (rev_ord j)) H. rewrite mul_diag_entry !mxE mulrC => <-.
      by apply: eq_bigr => c _; rewrite !mxE.
    rewrite -scalemxAr mxE. have := congr1 (fun B : 'M[R]_n => B (rev_ord j) (rev_ord j)) O. rewrite [RHS]mxE eqxx => C.
    have -> : ((col (rev_ord j) U)^T *m col (rev_ord j) U) 0 0 = 1.
      by rewrite -[RHS]C !mxE; apply: eq_bigr => c _; rewrite !mxE.
    by rewrite mulr1.
  Qed.
  Lemma variance_below eps k (Hk : (k <= n)%N) : 0 <= eps ->
    model_variance (primal_vals eps Hk s) <= \sum_v (model_variance (primal_vals eps Hk (t v)) + k%:R * eps).
  Proof.
    move=> e0. apply: (@le_trans _ _ (\sum_(i < k) ranked s i)).
      rewrite variance_gain. apply: ler_sum => i _. rewrite /gain. case: ifP => // _. exact: (ranked_psd all_psd E).
    apply: le_trans (sum_ranked Hk) _. apply: ler_sum => v _. rewrite variance_gain.
    have -> : k%:R * eps = \sum_(i < k) eps by rewrite sumr_const card_ord mulr_natl.
    rewrite -big_split /=. apply: ler_sum => i _. exact: ranked_gain.
  Qed.
  Lemma loss_above eps k (Hk : (k <= n)%N) : 0 <= eps ->
    \sum_v loss (K v) (primal_param eps Hk (t v) (W v)) <= loss (all_K K) (primal_param eps Hk s V) + p%:R * (k%:R * eps).
  Proof.
    move=> e0. rewrite (loss_variance E) (eq_bigr _ (fun v _ => loss_variance (F v) eps Hk)) big_split /= sumrN.
    have -> : \tr (all_K K) = \sum_v \tr (K v) by rewrite /all_K raddf_sum.
    have := variance_below Hk e0. rewrite big_split /= sumr_const card_ord -[k%:R * eps *+ p]mulr_natl.
    move: (\sum_v \tr (K v)) (\sum_v model_variance _) (model_variance _) (p%:R * _) => a b c x H.
    by rewrite -addrA ler_add2l ler_oppl opprD opprK ler_subl_addr.
  Qed.
  Lemma loss_shared q (H : 'M[R]_(n, q)) : loss (all_K K) H = \sum_v loss (K v) H.
  Proof.
    rewrite /loss /all_K [RHS]big_split /= sumrN mulmx_sumr.
    have T (B : 'I_p -> 'M[R]_n) : \tr (\sum_v B v) = \sum_v \tr (B v) by rewrite raddf_sum.
    by rewrite !T.
  Qed.
End Several.

Section Features.
  Variables (R : rcfType) (n d e : nat) (Phi : 'M[R]_(n, d)) (Psi : 'M[R]_(n, e)).
  Lemma lshift_injective : injective (@lshift d e).
  Proof. exact: lshift_inj. Qed.
  Lemma moment_block : between (@lshift d e) (second_moment (all_phi Phi Psi)) = second_moment Phi.
  Proof.
    apply/matrixP => a b. rewrite !mxE. congr (_ * _). apply: eq_bigr => c _. by rewrite ![(_^T) _ _]mxE /all_phi !row_mxEl.
  Qed.
  Lemma moment_block_r : between (@rshift d e) (second_moment (all_phi Phi Psi)) = second_moment Psi.
  Proof.
    apply/matrixP => a b. rewrite !mxE. congr (_ * _). apply: eq_bigr => c _. by rewrite ![(_^T) _ _]mxE /all_phi !row_mxEr.
  Qed.
  Lemma all_phi_gram : all_phi Phi Psi *m (all_phi Phi Psi)^T = Phi *m Phi^T + Psi *m Psi^T.
  Proof. by rewrite /all_phi tr_row_mx mul_row_col. Qed.
  Lemma moment_trace : \tr (second_moment (all_phi Phi Psi)) = \tr (second_moment Phi) + \tr (second_moment Psi).
  Proof.
    rewrite /second_moment !mxtraceZ -mulrDr. congr (_ * _). rewrite !(mxtrace_mulC (_^T)) all_phi_gram. by rewrite raddfD.
  Qed.
End Features.

Section Stated.
  Variable R : rcfType.
  Lemma view_psd n (kappa : R) (K : 'M[R]_n) : 0 <= kappa -> psd K -> psd (view_K kappa K).
  Proof. move=> k0 P x. rewrite /qform /view_K -scalemxAr -scalemxAl mxE. apply: mulr_ge0 => //. exact: P. Qed.

  Variables (n p : nat) (kappa : 'I_p -> R) (K : 'I_p -> 'M[R]_n).
  Hypothesis k0 : forall v, 0 <= kappa v.
  Hypothesis P : forall v, psd (K v).
  Let G v := view_K (kappa v) (K v).
  Variables (s : 'rV[R]_n) (V : 'M[R]_n) (t : 'I_p -> 'rV[R]_n) (W : 'I_p -> 'M[R]_n).
  Hypothesis E : eigendecomposition (all_K G) s V.
  Hypothesis F : forall v, eigendecomposition (G v) (t v) (W v).
  Variables (eps : R) (k : nat) (Hk : (k <= n)%N).
  Hypothesis e0 : 0 < eps.
  Let PG v : psd (G v) := view_psd (k0 v) (P v).

  Lemma each_below v :
    (nystrom_dim eps (eigs_values Hk (t v)) <= nystrom_dim eps (eigs_values Hk s))%N /\
    (forall (i : component eps Hk (t v)) (j : component eps Hk s), i = j :> nat -> dual_vals eps Hk (t v) 0 i <= dual_vals eps Hk s 0 j) /\
    model_variance (dual_vals eps Hk (t v)) <= model_variance (dual_vals eps Hk s).
  Proof.
    have B := larger (F v) E Hk (rest_psd PG v).
    split; first exact: dim_grows. split.
    - move=> i j ij. rewrite /dual_vals mxE [X in _ <= X]mxE. apply: ler_wpmul2l; first by rewrite invr_ge0 ler0n.
      rewrite (prune_first (F v)) (prune_first E) -ij. by have := B (Ordinal (ranked_index i)); rewrite !ranked_ord.
    - case: (posnP n) => [n0|n0]; last first.
        have N : 0 < n%:R :> R by rewrite ltr0n. rewrite -(ler_pmul2l N) !dual_variance //. exact: variance_grows B (ltW e0).
      have Z (u : 'rV[R]_n) : model_variance (dual_vals eps Hk u) = 0.
        rewrite /model_variance big1 // => i _. have C : n%:R = 0 :> R by rewrite n0. by rewrite /dual_vals mxE C invr0 mul0r.
      by rewrite !Z.
  Qed.
  Lemma joint_at_most : (0 < n)%N ->
    model_variance (dual_vals eps Hk s) <= \sum_v (model_variance (dual_vals eps Hk (t v)) + k%:R * eps / n%:R).
  Proof.
    move=> n0. have N : 0 < n%:R :> R by rewrite ltr0n.
    rewrite -(ler_pmul2l N) dual_variance // mulr_sumr.
    rewrite (eq_bigr (fun v => model_variance (primal_vals eps Hk (t v)) + k%:R * eps)); first exact: (variance_below E F PG Hk (ltW e0)).
    move=> v _. by rewrite mulrDr dual_variance // [n%:R * _]mulrC divfK // gt_eqF.
  Qed.
  Lemma joint_loss : \sum_v loss (G v) (dual_param eps Hk (t v) (W v)) <= loss (all_K G) (dual_param eps Hk s V) + p%:R * (k%:R * eps).
  Proof. exact: (loss_above E F PG Hk (ltW e0)). Qed.
End Stated.

Section Primal.
  Variables (R : rcfType) (n d e : nat) (Phi : 'M[R]_(n, d)) (Psi : 'M[R]_(n, e)).
  Variables (s : 'rV[R]_(d + e)) (V : 'M[R]_(d + e)) (t : 'rV[R]_d) (W : 'M[R]_d) (u : 'rV[R]_e) (U : 'M[R]_e).
  Hypothesis E : eigendecomposition (second_moment (all_phi Phi Psi)) s V.
  Hypothesis F : eigendecomposition (second_moment Phi) t W.
  Hypothesis G : eigendecomposition (second_moment Psi) u U.
  Variables (eps : R) (k : nat) (Hk : (k <= d + e)%N).
  Hypothesis e0 : 0 < eps.
  Lemma primal_first (Hd : (k <= d)%N) : 
    (nystrom_dim eps (eigs_values Hd t) <= nystrom_dim eps (eigs_values Hk s))%N /\
    (forall (i : component eps Hd t) (j : component eps Hk s), i = j :> nat -> primal_vals eps Hd t 0 i <= primal_vals eps Hk s 0 j) /\
    model_variance (primal_vals eps Hd t) <= model_variance (primal_vals eps Hk s).
  Proof.
    have F' := F. rewrite -(moment_block Phi Psi) in F'.
    have B := part_below (@lshift_inj d e) E F' Hd Hk.
    split; first exact: dim_grows. split; last exact: variance_grows B (ltW e0).
    move=> i j ij. rewrite /primal_vals (prune_first F) (prune_first E) -ij.
    by have := B (Ordinal (ranked_index i)); rewrite !ranked_ord.
  Qed.
  Lemma primal_second (He : (k <= e)%N) : 
    (nystrom_dim eps (eigs_values He u) <= nystrom_dim eps (eigs_values Hk s))%N /\
    (forall (i : component eps He u) (j : component eps Hk s), i = j :> nat -> primal_vals eps He u 0 i <= primal_vals eps Hk s 0 j) /\
    model_variance (primal_vals eps He u) <= model_variance (primal_vals eps Hk s).
  Proof.
    have G' := G. rewrite -(moment_block_r Phi Psi) in G'.
    have B := part_below (@rshift_inj d e) E G' He Hk.
    split; first exact: dim_grows. split; last exact: variance_grows B (ltW e0).
    move=> i j ij. rewrite /primal_vals (prune_first G) (prune_first E) -ij.
    by have := B (Ordinal (ranked_index i)); rewrite !ranked_ord.
  Qed.
End Primal.
