(** Property theorem C218: Nystrom kernels are the best of their dimension. *)
From mathcomp Require Import all_ssreflect all_algebra.
From Verif Require Import NystromM MatrixSpec NystromMProofs KpcaSpec KpcaMProofs LimitSpec PerturbSpec PerturbProofs SolverExamples PerturbExamples SubspaceExamples BestProofs.
Set Implicit Arguments. Unset Strict Implicit. Unset Printing Implicit Defensive.
Import GRing.Theory Num.Theory.
Local Open Scope ring_scope.

(** The kernel matrix of the Nystrom features misses exactly the eigenvalues left out. *)
Theorem C218_error :
  forall (R : rcfType) n (K : 'M[R]_n) (s : 'rV[R]_n) (V : 'M[R]_n), eigendecomposition K s V ->
  forall (eps : R) (k : nat) (Hk : (k <= n)%N), 0 <= eps ->
    let Phi := nystrom_sample eps Hk s V in
    frobenius2 (K - Phi *m Phi^T) = \sum_(j | left_out s eps k j) s 0 j ^+ 2.
Proof. by move=> R n K s V E eps k Hk He; exact: nystrom_error. Qed.
Print Assumptions C218_error.

(** No matrix whose rank is at most their number is closer in squared entries ... *)
Theorem C218_entries :
  forall (R : rcfType) n (K : 'M[R]_n) (s : 'rV[R]_n) (V : 'M[R]_n), eigendecomposition K s V -> psd K ->
  forall (eps : R) (k : nat) (Hk : (k <= n)%N), 0 <= eps ->
    let Phi := nystrom_sample eps Hk s V in
    forall M : 'M[R]_n, (\rank M <= nystrom_dim eps (eigs_values Hk s))%N ->
      frobenius2 (K - Phi *m Phi^T) <= frobenius2 (K - M).
Proof. by move=> R n K s V E PK eps k Hk He Phi M; exact: nystrom_best. Qed.
Print Assumptions C218_entries.

(** ... or as an operator. *)
Theorem C218_operator :
  forall (R : rcfType) n (K : 'M[R]_n) (s : 'rV[R]_n) (V : 'M[R]_n), eigendecomposition K s V -> psd K ->
  forall (eps : R) (k : nat) (Hk : (k <= n)%N), 0 <= eps ->
    let Phi := nystrom_sample eps Hk s V in
    forall (M : 'M[R]_n) (beta : R), (\rank M <= nystrom_dim eps (eigs_values Hk s))%N -> 0 <= beta ->
      within beta K M -> within beta K (Phi *m Phi^T).
Proof. by move=> R n K s V E PK eps k Hk He Phi M beta; exact: nystrom_best_operator. Qed.
Print Assumptions C218_operator.

(** In particular no other features of as many dimensions, or of fewer, do better; two different
    sets of features on both sides do not either. *)
Theorem C218_features :
  forall (R : rcfType) n (K : 'M[R]_n) (s : 'rV[R]_n) (V : 'M[R]_n), eigendecomposition K s V -> psd K ->
  forall (eps : R) (k : nat) (Hk : (k <= n)%N), 0 <= eps ->
    let Phi := nystrom_sample eps Hk s V in
    forall q (A B : 'M[R]_(n, q)), (q <= nystrom_dim eps (eigs_values Hk s))%N ->
      frobenius2 (K - Phi *m Phi^T) <= frobenius2 (K - A *m B^T) /\
      forall beta : R, 0 <= beta -> within beta K (A *m B^T) -> within beta K (Phi *m Phi^T).
Proof.
move=> R n K s V E PK eps k Hk He Phi q A B Hq.
have H : (\rank (A *m B^T) <= nystrom_dim eps (eigs_values Hk s))%N.
  by apply: leq_trans (mxrankM_maxl _ _) _; apply: leq_trans (rank_leq_col _) Hq.
split; first exact: nystrom_best. by move=> beta B0; exact: nystrom_best_operator.
Qed.
Print Assumptions C218_features.

(** Compared with the dimension that was asked for, pruning costs at most the squared threshold for
    each. *)
Theorem C218_requested :
  forall (R : rcfType) n (K : 'M[R]_n) (s : 'rV[R]_n) (V : 'M[R]_n), eigendecomposition K s V -> psd K ->
  forall (eps : R) (k : nat) (Hk : (k <= n)%N), 0 <= eps ->
    let Phi := nystrom_sample eps Hk s V in
    forall M : 'M[R]_n, (\rank M <= k)%N ->
      frobenius2 (K - Phi *m Phi^T) <= frobenius2 (K - M) + k%:R * eps ^+ 2.
Proof. by move=> R n K s V E PK eps k Hk He Phi M; exact: nystrom_requested. Qed.
Print Assumptions C218_requested.

(** One feature for the diagonal matrix of 1 and 2: the error is 1, and 5 without any feature. *)
Example C218_nontrivial (R : rcfType) :
  let K := diag_mx (ladder R) in
  let Phi := nystrom_sample (1 / 2%:R) (isT : (1 <= 2)%N) (ladder R) 1%:M in
  eigendecomposition K (ladder R) 1%:M /\ psd K /\
  nystrom_dim (1 / 2%:R) (eigs_values (isT : (1 <= 2)%N) (ladder R)) = 1%N /\
  frobenius2 (K - Phi *m Phi^T) = 1 /\ frobenius2 (K - 0) = 5%:R /\ (\rank (0%R : 'M[R]_2) <= 1)%N.
Proof.
split; first exact: ladder_decomposition. split; first exact: ladder_psd. split; first by apply: one_kept; rewrite mxE.
split.
  rewrite (nystrom_error (ladder_decomposition R)) ?divr_ge0 ?ler01 ?ler0n // big_mkcond big_ord_recl big_ord1 /=.
  by rewrite /left_out !mxE /= expr1n ifN ?addr0 // -Order.TotalTheory.leNgt ler_pdivr_mulr ?ltr0n // -natrM ler1n.
split; last by rewrite mxrank0.
rewrite subr0 /frobenius2 !big_ord_recl !big_ord0 !mxE /= expr1n mulr0n mulr1n expr0n /= !addr0 !add0r -natrX. by rewrite -(natrD R 1 4).
Qed.
