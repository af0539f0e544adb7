(** Property theorem C195: a training set that holds every point several times. *)
From mathcomp Require Import all_ssreflect all_fingroup all_algebra.
From Verif Require Import NystromM MatrixSpec KpcaM KpcaSpec SolverSpec LssvmM StableSpec CenterM RepeatSpec RepeatProofs RepeatExamples.
Set Implicit Arguments. Unset Strict Implicit. Unset Printing Implicit Defensive.
Import GRing.Theory Num.Theory.
Local Open Scope ring_scope.

(** * C195 *)

(** An LS-SVM in dual: if every point comes [m] times, in any order [c], and gamma is multiplied by
    [m], training gives the same bias and the same predictions, for any new points of kernels [k]
    with the original points. *)
Theorem C195_lssvm :
  forall (R : rcfType) (N n m q : nat) (c : 'I_N -> 'I_n) (K : 'M[R]_n) (gamma : R) (Y h : 'M[R]_(n, q)) b,
    copies m c -> (0 < m)%N -> (0 < n)%N -> psd K -> 0 < gamma ->
    solve_dual K gamma Y = Some (h, b) ->
    exists h', solve_dual (between c K) (m%:R * gamma) (rows_of c Y) = Some (h', b) /\
      forall (kappa : R) p (k : 'M[R]_(p, n)), predict_dual kappa h' b (columns_of c k) = predict_dual kappa h b k.
Proof.
  move=> R N n m q c K gamma Y h b C m0 n0 P G S. exists (m%:R^-1 *: rows_of c h).
  split; first exact (repeat_solve C m0 P G n0 S). move=> kappa p k. exact (repeat_predict C m0 h b kappa k).
Qed.
Print Assumptions C195_lssvm.

(** Principal components in primal are computed from the same matrix. *)
Theorem C195_primal :
  forall (R : rcfType) (N n m d : nat) (c : 'I_N -> 'I_n) (Phi : 'M[R]_(n, d)),
    copies m c -> (0 < m)%N -> second_moment (rows_of c Phi) = second_moment Phi.
Proof. move=> R N n m d c Phi C m0. exact (rows_second C Phi m0). Qed.
Print Assumptions C195_primal.

(** Principal components in dual: [s], [V] decompose the kernel matrix of the points and [s'], [V']
    that of the training set with every point [m] times.  With the threshold divided by [m] for the
    former, there are as many components, with the same variances.  If the last one is separated
    from the next, all inner products between latent variables and between outputs are multiplied
    by [m], that is, all distances by its square root, and all angles are the same. *)
Theorem C195_dual :
  forall (R : rcfType) (N n m : nat) (c : 'I_N -> 'I_n) (K : 'M[R]_n) (s : 'rV[R]_n) (V : 'M[R]_n) (s' : 'rV[R]_N) (V' : 'M[R]_N)
    (eps : R) (k : nat) (Hk : (k <= n)%N) (Hk' : (k <= N)%N),
    copies m c -> (0 < m)%N -> 0 < eps -> (0 < k)%N ->
    eigendecomposition K s V -> eigendecomposition (between c K) s' V' ->
    let e := m%:R^-1 * eps in
    let H := dual_param e Hk s V in let v := dual_vals e Hk s in
    let H' := dual_param eps Hk' s' V' in let v' := dual_vals eps Hk' s' in
    nystrom_dim eps (eigs_values Hk' s') = nystrom_dim e (eigs_values Hk s) /\
    (forall (i : 'I_(nystrom_dim eps (eigs_values Hk' s'))) (j : 'I_(nystrom_dim e (eigs_values Hk s))), i = j :> nat -> v' 0 i = v 0 j) /\
    model_variance v' = model_variance v /\
    (separated e k s -> forall p p' (x : 'M[R]_(p, n)) (y : 'M[R]_(p', n)),
       h_dual H' v' (columns_of c x) *m (h_dual H' v' (columns_of c y))^T = m%:R *: (h_dual H v x *m (h_dual H v y)^T) /\
       forward_dual H' (columns_of c x) *m (forward_dual H' (columns_of c y))^T = m%:R *: (forward_dual H x *m (forward_dual H y)^T)).
Proof.
  move=> R N n m c K s V s' V' eps k Hk Hk' C m0 e0 k0 E E' e H v H' v'.
  split; first exact (repeat_dim C m0 E E' Hk Hk' e0).
  split; first by move=> i j; exact (repeat_values C m0 E E' e0 (i:=i) (j:=j)).
  split; first exact (repeat_variance C m0 E E' Hk Hk' e0).
  move=> S p p' x y. split; [exact (repeat_latent C m0 E E' Hk Hk' e0 k0 S x y) | exact (repeat_forward C m0 E E' Hk Hk' e0 k0 S x y)].
Qed.
Print Assumptions C195_dual.

(** The same holds of centered kernels: centering commutes with the repetition, on the training
    points and on new points. *)
Theorem C195_centered :
  forall (R : rcfType) (N n m : nat) (c : 'I_N -> 'I_n) (K : 'M[R]_n),
    copies m c -> (0 < m)%N ->
    center_sample (between c K) = between c (center_sample K) /\
    forall p (k : 'M[R]_(p, n)), center_oos (between c K) (columns_of c k) = columns_of c (center_oos K k).
Proof.
  move=> R N n m c K C m0. split; first exact (center_between C m0 K). move=> p k. exact (center_columns C m0 K k).
Qed.
Print Assumptions C195_centered.

(** Two points of either class, each twice and mixed; and one point twice, whose kernel matrix has
    the eigenvalues 0 and 2. *)
Example C195_nontrivial :
  forall R : rcfType,
    (copies 2 twice /\ psd (1%:M : 'M[R]_2) /\ solve_dual (1%:M : 'M[R]_2) 1 (signs R) = Some (2%:R^-1 *: signs R, 0)) /\
    (copies 2 same /\ eigendecomposition (1%:M : 'M[R]_1) (const_mx 1) 1%:M /\
     eigendecomposition (between same (1%:M : 'M[R]_1)) (pair_values R) (pair_vectors R) /\
     separated (2%:R^-1 * 1) 1 (const_mx 1 : 'rV[R]_1) /\
     nystrom_dim (2%:R^-1 * 1 : R) (eigs_values (leqnn 1) (const_mx 1 : 'rV[R]_1)) = 1%N).
Proof.
  move=> R. split.
    split; first exact: twice_copies. split; [exact: one_psd | exact: signs_solved].
  split; first exact: same_copies. split; first exact: single_decomposition. split; first exact: pair_decomposition.
  split; [exact: single_separated | exact: single_dim].
Qed.
Print Assumptions C195_nontrivial.
