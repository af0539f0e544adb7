(** Property theorem C171: asking for more components. *)
From mathcomp Require Import all_ssreflect all_algebra.
From Verif Require Import NystromM MatrixSpec NystromMProofs KpcaM KpcaSpec KpcaMProofs KpcaMore.
Set Implicit Arguments. Unset Strict Implicit. Unset Printing Implicit Defensive.
Import GRing.Theory Num.Theory Order.POrderTheory Order.TotalTheory.
Local Open Scope ring_scope.

(** * C171 *)

(** [s], [V] is what the eigendecomposition of the matrix returned.  The components and values that
    are found when [k] are asked for are the first ones of those found when [k'] are; and so are the
    latent variables of any data, in primal and in dual. *)
Theorem C171_first :
  forall (R : rcfType) (n : nat) (s : 'rV[R]_n) (V : 'M[R]_n) (eps : R) (k k' : nat) (Hk : (k <= n)%N) (Hk' : (k' <= n)%N),
    (0 < k)%N -> (k <= k')%N ->
    exists le : (nystrom_dim eps (eigs_values Hk s) <= nystrom_dim eps (eigs_values Hk' s))%N,
      forall i, let i' := widen_ord le i in
        primal_vals eps Hk' s 0 i' = primal_vals eps Hk s 0 i /\
        (forall a, primal_param eps Hk' s V a i' = primal_param eps Hk s V a i) /\
        (forall m (phi : 'M[R]_(m, n)) a,
           h_primal (primal_param eps Hk' s V) (primal_vals eps Hk' s) phi a i' =
           h_primal (primal_param eps Hk s V) (primal_vals eps Hk s) phi a i) /\
        (forall m (x : 'M[R]_(m, n)) a,
           h_dual (dual_param eps Hk' s V) (dual_vals eps Hk' s) x a i' =
           h_dual (dual_param eps Hk s V) (dual_vals eps Hk s) x a i).
Proof.
move=> R n s V eps k k' Hk Hk' _ kk. exists (more_dim s eps Hk Hk' kk) => i /=.
split; first exact: more_vals. split; first by move=> a; exact: more_param.
split; [move=> m phi a; exact: more_scores | move=> m x a; exact: more_dual_scores].
Qed.
Print Assumptions C171_first.

(** The variance that is explained does not decrease and the loss does not increase. *)
Theorem C171_variance :
  forall (R : rcfType) (n : nat) (M : 'M[R]_n) (s : 'rV[R]_n) (V : 'M[R]_n), eigendecomposition M s V ->
  forall (eps : R) (k k' : nat) (Hk : (k <= n)%N) (Hk' : (k' <= n)%N), 0 <= eps -> (0 < k)%N -> (k <= k')%N ->
    model_variance (primal_vals eps Hk s) <= model_variance (primal_vals eps Hk' s) /\
    loss M (primal_param eps Hk' s V) <= loss M (primal_param eps Hk s V).
Proof.
move=> R n M s V E eps k k' Hk Hk' e0 _ kk.
by split; [exact: (@more_variance _ _ s eps e0 k k') | exact: (more_loss E e0)].
Qed.
Print Assumptions C171_variance.

(** What the loss is: the variance that is not explained. *)
Theorem C171_loss :
  forall (R : rcfType) (n : nat) (M : 'M[R]_n) (s : 'rV[R]_n) (V : 'M[R]_n), eigendecomposition M s V ->
  forall (eps : R) (k : nat) (Hk : (k <= n)%N), (0 < k)%N ->
    loss M (primal_param eps Hk s V) = \tr M - model_variance (primal_vals eps Hk s).
Proof. by move=> R n M s V E eps k Hk _; exact: loss_variance. Qed.
Print Assumptions C171_loss.

(** Each further component explains at most as much as the one before. *)
Theorem C171_diminishing :
  forall (R : rcfType) (n : nat) (M : 'M[R]_n) (s : 'rV[R]_n) (V : 'M[R]_n), eigendecomposition M s V ->
  forall (eps : R) (k : nat) (H0 : (k <= n)%N) (H1 : (k.+1 <= n)%N) (H2 : (k.+2 <= n)%N), 0 <= eps -> (0 < k)%N ->
    model_variance (primal_vals eps H2 s) - model_variance (primal_vals eps H1 s) <=
    model_variance (primal_vals eps H1 s) - model_variance (primal_vals eps H0 s).
Proof. by move=> R n M s V E eps k H0 H1 H2 e0 _; exact: (less_and_less E e0). Qed.
Print Assumptions C171_diminishing.

(** [k] components of [n] explain at least the share [k / n], up to the pruning threshold. *)
Theorem C171_share :
  forall (R : rcfType) (n : nat) (M : 'M[R]_n) (s : 'rV[R]_n) (V : 'M[R]_n), eigendecomposition M s V ->
  forall (eps : R) (k : nat) (Hk : (k <= n)%N), 0 <= eps -> (0 < k)%N ->
    k%:R / n%:R * \tr M - k%:R * eps <= model_variance (primal_vals eps Hk s).
Proof.
move=> R n M s V E eps k Hk e0 k0. have n0 : 0 < n%:R :> R by rewrite ltr0n (leq_trans k0 Hk).
by rewrite ler_subl_addr mulrAC ler_pdivr_mulr // [X in _ <= X]mulrC; exact: (fair_share E e0).
Qed.
Print Assumptions C171_share.

Example C171_nontrivial (R : rcfType) :
  exists (M : 'M[R]_2) (s : 'rV[R]_2) (V : 'M[R]_2) (eps : R),
    eigendecomposition M s V /\ 0 <= eps /\ 0 < \tr M /\ (0 < 1)%N /\ (1 <= 2)%N /\
    (exists Hk : (1 <= 2)%N, nystrom_dim eps (eigs_values Hk s) = 1%N).
Proof.
exists (diag_mx (ex_values R)), (ex_values R), 1%:M, (1 / 2%:R).
split; first exact: ex_decomposition. split; first by rewrite divr_ge0 ?ler0n ?ler01.
split; first by rewrite mxtrace_diag big_ord_recl big_ord1 !mxE /= add0r ltr01.
split=> //. split=> //. exists (isT : (1 <= 2)%N).
rewrite dim_nat /= /ranked; case: insubP => [j _ Ej|] //=.
rewrite mxE /= Ej /= ltNge ler_pdivr_mulr ?ltr0n // mul1r -subr_ge0 -[X in _ - X]mulr1n.
by rewrite -natrB //= ler01.
Qed.
