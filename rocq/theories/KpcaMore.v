(** More components: proofs. *)
From mathcomp Require Import all_ssreflect all_algebra.
From Verif Require Import NystromM MatrixSpec NystromMProofs KpcaM KpcaSpec KpcaMProofs KpcaOptimal.
Set Implicit Arguments. Unset Strict Implicit. Unset Printing Implicit Defensive.
Import GRing.Theory Num.Theory Order.POrderTheory Order.TotalTheory.
Local Open Scope ring_scope.

Section Ranked.
  Variables (R : rcfType) (n : nat) (s : 'rV[R]_n) (eps : R).
  (** The [i]-th largest eigenvalue. *)
  Definition ranked (i : nat) : R := if insub i is Some j then s 0 (rev_ord j) else 0.
  Lemma ranked_ord k (Hk : (k <= n)%N) (i : 'I_k) : eigs_values Hk s 0 i = ranked i.
  Proof.
    rewrite mxE /ranked. case: insubP => [j _ Ej|]; last by rewrite (leq_trans (ltn_ord i) Hk).
    by congr (s 0 _); apply: val_inj; rewrite /= Ej.
  Qed.
  Lemma kept_nat k (Hk : (k <= n)%N) :
    map val (kept eps (eigs_values Hk s)) = [seq i <- iota 0 k | ~~ (ranked i < eps)].
  Proof.
    rewrite /kept -val_enum_ord. elim: (enum 'I_k) => [//|i t IH] /=.
    by rewrite ranked_ord; case: ifP => _ /=; rewrite IH.
  Qed.
  Lemma dim_nat k (Hk : (k <= n)%N) : nystrom_dim eps (eigs_values Hk s) = size [seq i <- iota 0 k | ~~ (ranked i < eps)].
  Proof. by rewrite /nystrom_dim -(size_map val) kept_nat. Qed.

  Lemma ranked_le (i j : nat) : (forall a b : 'I_n, (a <= b)%N -> s 0 a <= s 0 b) ->
    (i <= j)%N -> (j < n)%N -> ranked j <= ranked i.
  Proof.
    move=> A ij jn. rewrite /ranked. case: insubP => [j' _ Ej|]; last by rewrite jn.
    case: insubP => [i' _ Ei|]; last by rewrite (leq_ltn_trans ij jn).
    apply: A => /=. rewrite Ej Ei. by apply: leq_sub2l; rewrite ltnS.
  Qed.

  (** What the [i]-th component contributes. *)
  Definition gain (i : nat) : R := if ranked i < eps then 0 else ranked i.
  Lemma variance_gain k (Hk : (k <= n)%N) : model_variance (primal_vals eps Hk s) = \sum_(i < k) gain i.
  Proof.
    rewrite /model_variance /primal_vals /prune_values.
    rewrite (eq_bigr (fun i => eigs_values Hk s 0 (tnth (in_tuple (kept eps (eigs_values Hk s))) i))); last by move=> i _; rewrite mxE.
    rewrite -(big_tnth _ _ (kept eps (eigs_values Hk s)) xpredT (fun i => eigs_values Hk s 0 i)).
    rewrite /kept big_filter big_enum_cond /= big_mkcond /=. apply: eq_bigr => i _.
    by rewrite ranked_ord /gain; case: (ranked i < eps).
  Qed.
End Ranked.

Section More.
  Variables (R : rcfType) (n : nat) (s : 'rV[R]_n) (V : 'M[R]_n) (eps : R).
  Variables (k k' : nat) (Hk : (k <= n)%N) (Hk' : (k' <= n)%N).
  Hypothesis kk : (k <= k')%N.

  Lemma kept_prefix : exists l, map val (kept eps (eigs_values Hk' s)) = map val (kept eps (eigs_values Hk s)) ++ l.
  Proof.
    rewrite !kept_nat -(subnKC kk) iotaD filter_cat. by eexists.
  Qed.
  Lemma more_dim : (nystrom_dim eps (eigs_values Hk s) <= nystrom_dim eps (eigs_values Hk' s))%N.
  Proof. case: kept_prefix => l E. by rewrite /nystrom_dim -(size_map val) -[X in (_ <= X)%N](size_map val) E size_cat leq_addr. Qed.

  Lemma more_index (i : 'I_(nystrom_dim eps (eigs_values Hk s))) :
    tnth (in_tuple (kept eps (eigs_values Hk' s))) (widen_ord more_dim i) =
    tnth (in_tuple (kept eps (eigs_values Hk s))) i :> nat.
  Proof.
    case: kept_prefix => l E.
    have N k0 (l0 : 'rV[R]_k0) (j : 'I_(nystrom_dim eps l0)) : tnth (in_tuple (kept eps l0)) j = nth 0%N (map val (kept eps l0)) j :> nat.
      rewrite (tnth_nth (tnth (in_tuple (kept eps l0)) j)) /= (nth_map (tnth (in_tuple (kept eps l0)) j)) //.
    by rewrite !N E nth_cat size_map /= (ltn_ord i).
  Qed.

  Lemma more_vals i : primal_vals eps Hk' s 0 (widen_ord more_dim i) = primal_vals eps Hk s 0 i.
  Proof. rewrite !mxE. congr (s 0 _). apply: val_inj => /=. by rewrite more_index. Qed.
  Lemma more_param a i : primal_param eps Hk' s V a (widen_ord more_dim i) = primal_param eps Hk s V a i.
  Proof. rewrite !mxE. congr (V a _). apply: val_inj => /=. by rewrite more_index. Qed.

  Lemma more_weight a i : weight (primal_param eps Hk' s V) (primal_vals eps Hk' s) a (widen_ord more_dim i) =
    weight (primal_param eps Hk s V) (primal_vals eps Hk s) a i.
  Proof.
    rewrite /weight !mul_mx_diag [LHS]mxE [RHS]mxE more_param. congr (_ * _). by rewrite [LHS]mxE [RHS]mxE more_vals.
  Qed.
  Lemma more_scores m (phi : 'M[R]_(m, n)) a i :
    h_primal (primal_param eps Hk' s V) (primal_vals eps Hk' s) phi a (widen_ord more_dim i) =
    h_primal (primal_param eps Hk s V) (primal_vals eps Hk s) phi a i.
  Proof.
    rewrite /h_primal !mul_mx_diag [LHS]mxE [RHS]mxE. congr (_ * _); last by rewrite [LHS]mxE [RHS]mxE more_vals.
    rewrite [LHS]mxE [RHS]mxE. apply: eq_bigr => b _. by rewrite more_weight.
  Qed.
  Lemma more_dual_scores m (x : 'M[R]_(m, n)) a i :
    h_dual (dual_param eps Hk' s V) (dual_vals eps Hk' s) x a (widen_ord more_dim i) =
    h_dual (dual_param eps Hk s V) (dual_vals eps Hk s) x a i.
  Proof.
    rewrite /h_dual !mul_mx_diag [LHS]mxE [RHS]mxE. congr (_ * _).
      rewrite [LHS]mxE [RHS]mxE. apply: eq_bigr => b _. by congr (_ * _); exact: more_param.
    rewrite [LHS]mxE [RHS]mxE. congr (_^-1). rewrite [LHS]mxE [RHS]mxE. congr (_ * _). exact: more_vals.
  Qed.
End More.

Section Loss.
  Variables (R : rcfType) (n : nat) (M : 'M[R]_n) (s : 'rV[R]_n) (V : 'M[R]_n).
  Hypothesis E : eigendecomposition M s V.
  Variable eps : R.
  Hypothesis eps0 : 0 <= eps.

  Lemma gain_ge0 i : 0 <= gain s eps i.
  Proof. rewrite /gain. case: ifP => // /negbT. rewrite -leNgt. exact: le_trans. Qed.
  Lemma gain_le i j : (i <= j)%N -> (j < n)%N -> gain s eps j <= gain s eps i.
  Proof.
    move=> ij jn. case: E => _ [_ A]. have L := ranked_le A ij jn. rewrite {1}/gain.
    case: ifP => [_|/negbT]; first exact: gain_ge0.
    rewrite -leNgt => H. rewrite /gain ltNge (le_trans H L) /=. exact: L.
  Qed.
  Lemma ranked_gain i : ranked s i <= gain s eps i + eps.
  Proof. rewrite /gain. case: ifP => [/ltW|_]; first by rewrite add0r. by rewrite ler_addl. Qed.

  Theorem more_variance k k' (Hk : (k <= n)%N) (Hk' : (k' <= n)%N) : (k <= k')%N ->
    model_variance (primal_vals eps Hk s) <= model_variance (primal_vals eps Hk' s).
  Proof.
    move=> kk. rewrite !variance_gain -!(big_mkord xpredT (gain s eps)).
    rewrite [X in _ <= X](big_cat_nat _ _ _ (leq0n k) kk) /= ler_addl. apply: sumr_ge0 => i _. exact: gain_ge0.
  Qed.
  Theorem less_and_less k (H0 : (k <= n)%N) (H1 : (k.+1 <= n)%N) (H2 : (k.+2 <= n)%N) :
    model_variance (primal_vals eps H2 s) - model_variance (primal_vals eps H1 s) <=
    model_variance (primal_vals eps H1 s) - model_variance (primal_vals eps H0 s).
  Proof.
    rewrite !variance_gain !big_ord_recr /=. move: (\sum_(i < k) gain s eps i) => x.
    rewrite [x + _ + _]addrC addrK [x + _]addrC addrK. exact: gain_le.
  Qed.

  Lemma loss_variance k (Hk : (k <= n)%N) : loss M (primal_param eps Hk s V) = \tr M - model_variance (primal_vals eps Hk s).
  Proof.
    rewrite /loss !trmxK -mulmxA mxtrace_mulC -mulmxA (param_eigen E eps Hk) mulmxA (param_orthonormal E eps Hk) mul1mx.
    by rewrite mxtrace_diag.
  Qed.
  Theorem more_loss k k' (Hk : (k <= n)%N) (Hk' : (k' <= n)%N) : (k <= k')%N ->
    loss M (primal_param eps Hk' s V) <= loss M (primal_param eps Hk s V).
  Proof. move=> kk. rewrite !loss_variance ler_add2l ler_opp2. exact: more_variance. Qed.

  Lemma trace_ranked : \tr M = \sum_(i < n) ranked s i.
  Proof.
    rewrite (trace_sum E) (reindex_inj rev_ord_inj) /=. apply: eq_bigr => i _. rewrite /ranked.
    case: insubP => [j _ Ej|]; last by rewrite ltn_ord. by congr (s 0 (rev_ord _)); apply: val_inj.
  Qed.
  Theorem fair_share k (Hk : (k <= n)%N) :
    k%:R * \tr M <= n%:R * (model_variance (primal_vals eps Hk s) + k%:R * eps).
  Proof.
    case: E => _ [_ A]. set T := \sum_(i < k) ranked s i.
    have HT : T <= model_variance (primal_vals eps Hk s) + k%:R * eps.
      have -> : k%:R * eps = \sum_(i < k) eps by rewrite sumr_const card_ord mulr_natl.
      rewrite variance_gain -big_split /=. apply: ler_sum => i _. exact: ranked_gain.
    apply: le_trans (_ : n%:R * T <= _); last by apply: ler_wpmul2l => //; exact: ler0n.
    rewrite trace_ranked. case: (eqVneq k n) => [kn|Nk]; first by rewrite /T kn.
    have kn : (k < n)%N by rewrite ltn_neqAle Nk. have kn' := ltnW kn.
    rewrite -(big_mkord xpredT (ranked s)) (big_cat_nat _ _ _ (leq0n k) kn') /= big_mkord -/T.
    have U : \sum_(k <= i < n) ranked s i <= (n - k)%:R * ranked s k.
      have -> : (n - k)%:R * ranked s k = \sum_(k <= i < n) ranked s k by rewrite sumr_const_nat mulr_natl.
      rewrite !big_seq. apply: ler_sum => i. rewrite mem_index_iota => /andP[ki iN]. exact: ranked_le.
    have L : k%:R * ranked s k <= T.
      have -> : k%:R * ranked s k = \sum_(i < k) ranked s k by rewrite sumr_const card_ord mulr_natl.
      apply: ler_sum => i _. apply: ranked_le => //. exact: ltnW.
    have N : n%:R = k%:R + (n - k)%:R :> R by rewrite -natrD subnKC.
    rewrite mulrDr N mulrDl ler_add2l.
    apply: le_trans (ler_wpmul2l (ler0n R k) U) _.
    rewrite mulrCA. by apply: ler_wpmul2l => //; exact: ler0n.
  Qed.
End Loss.
