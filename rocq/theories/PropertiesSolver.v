(** Property theorem C174: principal components, the solver and the order of the points. *)
From mathcomp Require Import all_ssreflect all_fingroup all_algebra.
From Verif Require Import NystromM MatrixSpec KpcaM KpcaSpec SolverSpec SolverProofs SolverExamples.
Set Implicit Arguments. Unset Strict Implicit. Unset Printing Implicit Defensive.
Import GRing.Theory Num.Theory.
Local Open Scope ring_scope.

(** * C174 *)

(** [s], [V] and [s'], [V'] are two decompositions of the same matrix, found by whatever method, or
    twice.  The values and the explained variance are the same.  If the last component that is kept
    is separated from the first one left out, so are the reconstructions of any features [phi], and
    all inner products, hence all distances and angles, between the latent variables and between
    the outputs of any features [phi] and [psi]. *)
Theorem C174_primal :
  forall (R : rcfType) (n : nat) (M : 'M[R]_n) (s s' : 'rV[R]_n) (V V' : 'M[R]_n),
    eigendecomposition M s V -> eigendecomposition M s' V' ->
    s = s' /\
    forall (eps : R) (k : nat) (Hk : (k <= n)%N), (0 < k)%N ->
      let U := primal_param eps Hk s V in let v := primal_vals eps Hk s in
      let U' := primal_param eps Hk s' V' in let v' := primal_vals eps Hk s' in
      model_variance v = model_variance v' /\
      (separated eps k s -> forall m m' (phi : 'M[R]_(m, n)) (psi : 'M[R]_(m', n)),
         phi_map U v (h_primal U v phi) = phi_map U' v' (h_primal U' v' phi) /\
         h_primal U v phi *m (h_primal U v psi)^T = h_primal U' v' phi *m (h_primal U' v' psi)^T /\
         forward_primal U v phi *m (forward_primal U v psi)^T = forward_primal U' v' phi *m (forward_primal U' v' psi)^T).
Proof.
  move=> R n M s s' V V' E E'. split; first exact: same_values E E'. move=> eps k Hk _ U v U' v'.
  split; first exact: (same_variance E E'). move=> S m m' phi psi.
  split; first exact: (same_back E E'). split; [exact: (same_latent E E') | exact: (same_forward E E')].
Qed.
Print Assumptions C174_primal.

(** In dual [K] is the kernel matrix of the training points.  They may moreover be given in another
    order [p]; [x] and [y] are the kernels of any other points with them. *)
Theorem C174_dual :
  forall (R : rcfType) (n : nat) (K : 'M[R]_n) (s s' : 'rV[R]_n) (V V' : 'M[R]_n) (p : 'S_n),
    eigendecomposition K s V -> eigendecomposition (\matrix_(i, j) K (p i) (p j)) s' V' ->
    s = s' /\
    forall (eps : R) (k : nat) (Hk : (k <= n)%N), (0 < k)%N -> separated eps k s ->
      let H := dual_param eps Hk s V in let v := dual_vals eps Hk s in
      let H' := dual_param eps Hk s' V' in let v' := dual_vals eps Hk s' in
      forall m m' (x : 'M[R]_(m, n)) (y : 'M[R]_(m', n)),
        h_dual H v x *m (h_dual H v y)^T = h_dual H' v' (reorder p x) *m (h_dual H' v' (reorder p y))^T /\
        forward_dual H x *m (forward_dual H y)^T = forward_dual H' (reorder p x) *m (forward_dual H' (reorder p y))^T.
Proof.
  move=> R n K s s' V V' p E E'. split; first exact: order_values E E'. move=> eps k Hk _ S H v H' v' m m' x y.
  split; [exact: (order_latent E E') | exact: (order_forward E E')].
Qed.
Print Assumptions C174_dual.

(** A component whose eigenvalue is not shared is found up to its sign. *)
Theorem C174_sign :
  forall (R : rcfType) (n : nat) (M : 'M[R]_n) (s : 'rV[R]_n) (V V' : 'M[R]_n),
    eigendecomposition M s V -> eigendecomposition M s V' ->
    forall (eps : R) (k : nat) (Hk : (k <= n)%N) i,
      (forall l l', s 0 l = primal_vals eps Hk s 0 i -> s 0 l' = primal_vals eps Hk s 0 i -> l = l') ->
      exists e : R, e ^+ 2 = 1 /\ forall m (phi : 'M[R]_(m, n)) a,
        h_primal (primal_param eps Hk s V') (primal_vals eps Hk s) phi a i =
        e * h_primal (primal_param eps Hk s V) (primal_vals eps Hk s) phi a i.
Proof.
  move=> R n M s V V' E E' eps k Hk i D. apply: (sign_latent E E') => l Hl. apply: D => //. by rewrite !mxE.
Qed.
Print Assumptions C174_sign.

(** Without the separation the results do depend on the decomposition that is found. *)
Theorem C174_separation_needed :
  forall R : rcfType, exists (M : 'M[R]_2) (s : 'rV[R]_2) (V V' : 'M[R]_2) (phi : 'rV[R]_2),
    eigendecomposition M s V /\ eigendecomposition M s V' /\
    let h W := h_primal (primal_param (1 / 2%:R) (leqnSn 1) s W) (primal_vals (1 / 2%:R) (leqnSn 1) s) phi in
    (h V *m (h V)^T) 0 0 = 0 /\ (h V' *m (h V')^T) 0 0 = 1.
Proof.
  move=> R. exists 1%:M, (const_mx 1), 1%:M, (swap R), (delta_mx 0 0).
  split; first exact: level_decomposition. split; first exact: swap_decomposition.
  by split; [exact: score_level | exact: score_swap].
Qed.
Print Assumptions C174_separation_needed.

Example C174_nontrivial (R : rcfType) :
  eigendecomposition (diag_mx (ladder R)) (ladder R) 1%:M /\ eigendecomposition (diag_mx (ladder R)) (ladder R) (flipped R) /\
  1%:M != flipped R /\ separated (1 / 2%:R) 1 (ladder R).
Proof.
  split; first exact: ladder_decomposition. split; first exact: flipped_decomposition. split; last exact: ladder_separated.
  apply/eqP => /matrixP /(_ 1 1). rewrite !mxE /= mulr1n => /eqP. by rewrite -subr_eq0 opprK -(natrD _ 1 1) pnatr_eq0.
Qed.
