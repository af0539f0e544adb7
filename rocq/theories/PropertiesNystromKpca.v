(** Property theorem C194: principal components of a Nystrom kernel. *)
From mathcomp Require Import all_ssreflect all_fingroup all_algebra.
From Verif Require Import NystromM MatrixSpec KpcaM KpcaSpec SolverSpec SolverExamples NystromKpcaSpec NystromKpcaProofs NystromKpcaExamples.
Set Implicit Arguments. Unset Strict Implicit. Unset Printing Implicit Defensive.
Import GRing.Theory Num.Theory.
Local Open Scope ring_scope.

(** * C194 *)

(** [K] is the base kernel matrix of the sample, [s] and [V] the decomposition found by the Nystrom
    kernel with [p] components and threshold [eps], [N] its features of the sample.  [s'] and [V']
    are the decomposition of the Nystrom kernel matrix found by principal components with [k]
    components and threshold [eps'].  They find as many components, with the same variances, as
    principal components of the base kernel asked for the smaller number of components with the
    larger threshold. *)
Theorem C194_variances :
  forall (R : rcfType) (n : nat) (K : 'M[R]_n) (s s' : 'rV[R]_n) (V V' : 'M[R]_n)
    (eps eps' : R) (p k : nat) (Hp : (p <= n)%N) (Hk : (k <= n)%N) (Hm : (minn k p <= n)%N),
    0 < eps -> 0 < eps' -> (0 < p)%N -> (0 < k)%N ->
    eigendecomposition K s V ->
    let N := nystrom_sample eps Hp s V in
    eigendecomposition (N *m N^T) s' V' ->
    let em := Num.max eps eps' in
    let v' := dual_vals eps' Hk s' in let v := dual_vals em Hm s in
    nystrom_dim eps' (eigs_values Hk s') = nystrom_dim em (eigs_values Hm s) /\
    (forall (i : 'I_(nystrom_dim eps' (eigs_values Hk s'))) (j : 'I_(nystrom_dim em (eigs_values Hm s))), i = j :> nat -> v' 0 i = v 0 j) /\
    model_variance v' = model_variance v.
Proof.
  move=> R n K s s' V V' eps eps' p k Hp Hk Hm e0 e0' _ _ E N E' em v' v.
  split; first exact (compare_dim E e0 E' Hk Hm e0'). split; last exact (compare_variance E e0 E' Hk Hm e0').
  move=> i j. exact (compare_entry E e0 E' (i:=i) (j:=j)).
Qed.
Print Assumptions C194_variances.

(** If the last of these components is separated from the next one, all inner products, hence all
    distances and angles, between the latent variables and between the outputs are those of the
    base kernel, for any points of base kernels [x] and [y] with the sample. *)
Theorem C194_outputs :
  forall (R : rcfType) (n : nat) (K : 'M[R]_n) (s s' : 'rV[R]_n) (V V' : 'M[R]_n)
    (eps eps' : R) (p k : nat) (Hp : (p <= n)%N) (Hk : (k <= n)%N) (Hm : (minn k p <= n)%N),
    0 < eps -> 0 < eps' -> (0 < p)%N -> (0 < k)%N ->
    eigendecomposition K s V ->
    let N := nystrom_sample eps Hp s V in
    eigendecomposition (N *m N^T) s' V' ->
    let em := Num.max eps eps' in
    separated em (minn k p) s ->
    forall m m' (x : 'M[R]_(m, n)) (y : 'M[R]_(m', n)),
      let nx := nystrom_oos eps Hp s V x *m N^T in let ny := nystrom_oos eps Hp s V y *m N^T in
      let H' := dual_param eps' Hk s' V' in let v' := dual_vals eps' Hk s' in
      let H := dual_param em Hm s V in let v := dual_vals em Hm s in
      h_dual H' v' nx *m (h_dual H' v' ny)^T = h_dual H v x *m (h_dual H v y)^T /\
      forward_dual H' nx *m (forward_dual H' ny)^T = forward_dual H x *m (forward_dual H y)^T.
Proof.
  move=> R n K s s' V V' eps eps' p k Hp Hk Hm e0 e0' _ _ E N E' em S m m' x y nx ny H' v' H v.
  split; [exact: (compare_latent E e0 E' Hk Hm e0' S) | exact: (compare_forward E e0 E' Hk Hm e0' S)].
Qed.
Print Assumptions C194_outputs.

(** The spectrum of the Nystrom kernel matrix is that of the base kernel where the eigenvalues that
    were not kept are replaced by zero; the eigenvectors of the base kernel are eigenvectors of it. *)
Theorem C194_spectrum :
  forall (R : rcfType) (n : nat) (K : 'M[R]_n) (s : 'rV[R]_n) (V : 'M[R]_n) (eps : R) (p : nat) (Hp : (p <= n)%N),
    0 < eps -> (0 < p)%N -> eigendecomposition K s V ->
    let N := nystrom_sample eps Hp s V in
    eigendecomposition (N *m N^T) (cut eps p s) V /\
    forall s' V', eigendecomposition (N *m N^T) s' V' -> s' = cut eps p s.
Proof.
  move=> R n K s V eps p Hp e0 _ E N. split; first exact (cut_decomposition E Hp e0).
  move=> s' V' E'. exact (compare_values E e0 E').
Qed.
Print Assumptions C194_spectrum.

(** Eigenvalues 1 and 2 and one Nystrom component: asked for two components, principal components
    find the variance 1 instead of 3/2. *)
Example C194_nontrivial :
  forall R : rcfType,
    eigendecomposition (diag_mx (ladder R)) (ladder R) 1%:M /\ (0 : R) < half R /\
    eigendecomposition (one_of_two R *m (one_of_two R)^T) (cut (half R) 1 (ladder R)) 1%:M /\
    separated (Num.max (half R) (half R)) (minn 2 1) (ladder R) /\
    model_variance (dual_vals (half R) (leqnn 2) (cut (half R) 1 (ladder R))) = 1 /\
    model_variance (dual_vals (half R) (leqnn 2) (ladder R)) = 3%:R / 2%:R.
Proof.
  move=> R. split; first exact: ladder_decomposition. split; first exact: half_gt0. split; first exact: one_decomposition.
  split; first exact: one_separated. split; [exact: one_variance | exact: two_variance].
Qed.
Print Assumptions C194_nontrivial.
