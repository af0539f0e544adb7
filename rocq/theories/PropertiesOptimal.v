(** Property theorem C146: a solved principal component analysis is optimal. *)
From mathcomp Require Import all_ssreflect all_algebra.
From Verif Require Import NystromM MatrixSpec NystromMProofs KpcaM KpcaSpec KpcaMProofs KpcaOptimal.
Set Implicit Arguments. Unset Strict Implicit. Unset Printing Implicit Defensive.
Import GRing.Theory Num.Theory.
Local Open Scope ring_scope.

(** * C146 *)

(** No orthonormal parameters of the same size have a smaller loss, in primal or in dual. *)
Theorem C146_primal :
  forall (R : rcfType) (n d : nat) (Phi : 'M[R]_(n, d)) (s : 'rV[R]_d) (V : 'M[R]_d),
    eigendecomposition (second_moment Phi) s V ->
  forall (eps : R) (k : nat) (Hk : (k <= d)%N) (W : 'M[R]_(d, nystrom_dim eps (eigs_values Hk s))), orthonormal W ->
    loss (second_moment Phi) (primal_param eps Hk s V) <= loss (second_moment Phi) W.
Proof. by move=> R n d Phi s V E eps k Hk W; exact: optimal_loss. Qed.
Print Assumptions C146_primal.
Theorem C146_dual :
  forall (R : rcfType) (n : nat) (K : 'M[R]_n) (s : 'rV[R]_n) (V : 'M[R]_n), eigendecomposition K s V ->
  forall (eps : R) (k : nat) (Hk : (k <= n)%N) (W : 'M[R]_(n, nystrom_dim eps (eigs_values Hk s))), orthonormal W ->
    loss K (dual_param eps Hk s V) <= loss K W.
Proof. by move=> R n K s V E eps k Hk W; exact: optimal_loss. Qed.
Print Assumptions C146_dual.
(** Nor does any choice of as many components as were asked for, up to the pruning threshold for
    each of them. *)
Theorem C146_requested :
  forall (R : rcfType) (n : nat) (M : 'M[R]_n) (s : 'rV[R]_n) (V : 'M[R]_n), eigendecomposition M s V ->
  forall (eps : R) (k : nat) (Hk : (k <= n)%N) (W : 'M[R]_(n, k)), orthonormal W -> 0 <= eps ->
    loss M (primal_param eps Hk s V) <= loss M W + k%:R * eps /\
    loss M (dual_param eps Hk s V) <= loss M W + k%:R * eps.
Proof. by move=> R n M s V E eps k Hk W O He; split; exact: requested_loss. Qed.
Print Assumptions C146_requested.
(** The variance kept is the greatest one. *)
Theorem C146_variance :
  forall (R : rcfType) (n : nat) (M : 'M[R]_n) (s : 'rV[R]_n) (V : 'M[R]_n), eigendecomposition M s V ->
  forall (eps : R) (k : nat) (Hk : (k <= n)%N) (W : 'M[R]_(n, nystrom_dim eps (eigs_values Hk s))), orthonormal W ->
    \tr (W *m W^T *m M) <= model_variance (primal_vals eps Hk s).
Proof.
move=> R n M s V E eps k Hk W O. rewrite /model_variance /primal_vals (vals_sum s eps Hk). exact: (best_captured E O).
Qed.
Print Assumptions C146_variance.
Example C146_nontrivial (R : rcfType) :
  exists (M : 'M[R]_2) (s : 'rV[R]_2) (V : 'M[R]_2) (W : 'M[R]_(2, 1)),
    eigendecomposition M s V /\ orthonormal W /\ loss M W = 1 /\ (1 <= 2)%N.
Proof.
exists (diag_mx (ex_values R)), (ex_values R), 1%:M, (\matrix_(i, j) (i == ord0)%:R).
split; first exact: ex_decomposition. split; last split=> //.
  apply/matrixP => i j; rewrite !ord1 mxE big_ord_recl big_ord1 !mxE /=. by rewrite mulr1 mulr0 addr0.
rewrite /loss trmxK mxtrace_diag big_ord_recl big_ord1 !mxE /= add0r.
rewrite /mxtrace big_ord_recl big_ord1 !mul_mx_diag !mxE !big_ord1 !mxE /=.
by rewrite !mulr0 !mul0r addr0 subr0.
Qed.
