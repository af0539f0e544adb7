(** Predicting the views that are not known (C198). *)
From mathcomp Require Import all_ssreflect all_algebra.
From Verif Require Import NystromM MatrixSpec NystromMProofs KpcaM KpcaSpec KpcaMProofs MvProjectM MvProjectProofs MvProjectExamples RepeatExamples.
Set Implicit Arguments. Unset Strict Implicit. Unset Printing Implicit Defensive.
Import GRing.Theory Num.Theory Order.POrderTheory Order.TotalTheory.
Local Open Scope ring_scope.

(** * C198 *)

(** In primal, on a solved model with the weights [W]: what is predicted are the features,
    in the other views, of the latent variables that explain the known features best, in
    the sense of least squares; there are no better ones, and no others as good. *)
Theorem C198_least_squares_partial :
  forall (R : rcfType) (n dk dp : nat) (Pk : 'M[R]_(n, dk)) (Pp : 'M[R]_(n, dp))
    (s : 'rV[R]_(dk + dp)) (V : 'M[R]_(dk + dp)) (eps : R) (k : nat) (Hk : (k <= dk + dp)%N),
    eigendecomposition (second_moment (row_mx Pk Pp)) s V -> 0 < eps ->
    let vals := primal_vals eps Hk s in let W := weight (primal_param eps Hk s V) vals in
    forall m (phi : 'M[R]_(m, dk)) (out : 'M[R]_(m, dp)), project_primal (usubmx W) (dsubmx W) vals phi = Some out ->
    exists h, out = h *m (dsubmx W)^T /\
    forall h', frobenius2 (phi - h *m (usubmx W)^T) <= frobenius2 (phi - h' *m (usubmx W)^T) /\
               (frobenius2 (phi - h' *m (usubmx W)^T) = frobenius2 (phi - h *m (usubmx W)^T) -> h' = h).
Proof.
move=> R n dk dp Pk Pp s V eps k Hk E He vals W m phi out. have G := solved_gram Hk E He.
rewrite (project_best G). case: ifP => // U [<-]. exists (best (usubmx W) phi). split=> // h'. exact: best_least.
Qed.
Print Assumptions C198_least_squares_partial.

(** A point of the model is completed exactly, and so are the training points when no
    variance is left out, provided the known views see every component. *)
Theorem C198_exact_partial :
  forall (R : rcfType) (n dk dp : nat) (Pk : 'M[R]_(n, dk)) (Pp : 'M[R]_(n, dp))
    (s : 'rV[R]_(dk + dp)) (V : 'M[R]_(dk + dp)) (eps : R) (k : nat) (Hk : (k <= dk + dp)%N),
    eigendecomposition (second_moment (row_mx Pk Pp)) s V -> 0 < eps ->
    let vals := primal_vals eps Hk s in let W := weight (primal_param eps Hk s V) vals in
    (usubmx W)^T *m usubmx W \in unitmx ->
    (forall m (h : 'M[R]_(m, _)), project_primal (usubmx W) (dsubmx W) vals (h *m (usubmx W)^T) = Some (h *m (dsubmx W)^T)) /\
    ((0 < n)%N -> (forall j : 'I_(dk + dp), (j < dk + dp - k)%N || (s 0 j < eps) -> s 0 j = 0) ->
     project_primal (usubmx W) (dsubmx W) vals Pk = Some Pp).
Proof.
move=> R n dk dp Pk Pp s V eps k Hk E He vals W U. split; first by move=> m h; exact: (project_range (solved_gram Hk E He)).
move=> Hn L. exact: (training_exact E He Hn L U).
Qed.
Print Assumptions C198_exact_partial.

(** There is no prediction exactly when some combination of the components does not show in
    the known views. *)
Theorem C198_undefined_partial :
  forall (R : rcfType) (n dk dp : nat) (Pk : 'M[R]_(n, dk)) (Pp : 'M[R]_(n, dp))
    (s : 'rV[R]_(dk + dp)) (V : 'M[R]_(dk + dp)) (eps : R) (k : nat) (Hk : (k <= dk + dp)%N),
    eigendecomposition (second_moment (row_mx Pk Pp)) s V -> 0 < eps ->
    let vals := primal_vals eps Hk s in let W := weight (primal_param eps Hk s V) vals in
    forall m (phi : 'M[R]_(m, dk)), project_primal (usubmx W) (dsubmx W) vals phi = None <->
      exists h : 'rV[R]_(_), h != 0 /\ h *m (usubmx W)^T = 0.
Proof. move=> R n dk dp Pk Pp s V eps k Hk E He vals W m phi. exact: (project_none (solved_gram Hk E He)). Qed.
Print Assumptions C198_undefined_partial.

(** In dual the matrix that is inverted is not that of the known views, except with one
    point. *)
Theorem C198_dual_inverted :
  forall (R : rcfType) (n : nat) (Kk Kp : 'M[R]_n) (s : 'rV[R]_n) (V : 'M[R]_n) (eps : R) (k : nat) (Hk : (k <= n)%N),
    eigendecomposition (Kk + Kp) s V -> (0 < n)%N ->
    let H := dual_param eps Hk s V in let vals := dual_vals eps Hk s in
    diag_mx vals - H^T *m Kp *m H = H^T *m Kk *m H - (n%:R - 1) *: diag_mx vals.
Proof. move=> R n Kk Kp s V eps k Hk E Hn H vals. exact: dual_inverted. Qed.
Print Assumptions C198_dual_inverted.

(** Refuted in dual: with the same kernel in both views, the prediction is undefined with
    two points, and the training points are predicted with the opposite sign with more,
    whatever the kernel. *)
Theorem C198_dual_refuted :
  forall (R : rcfType) (n : nat) (K : 'M[R]_n) (s : 'rV[R]_n) (V : 'M[R]_n) (eps : R) (k : nat) (Hk : (k <= n)%N),
    eigendecomposition (K + K) s V -> 0 < eps ->
    let H := dual_param eps Hk s V in let vals := dual_vals eps Hk s in
    (n = 2%N -> (0 < nystrom_dim eps (eigs_values Hk s))%N -> forall m (x : 'M[R]_(m, n)), project_dual H vals K x = None) /\
    ((2 < n)%N -> (forall j : 'I_n, (j < n - k)%N || (s 0 j < eps) -> s 0 j = 0) ->
     project_dual H vals K K = Some (- (n%:R / (n - 2)%:R) *: K)).
Proof.
move=> R n K s V eps k Hk E He H vals. split; first by move=> N2 Hq m x; exact: twins_two.
move=> Hn L. exact: twins_more.
Qed.
Print Assumptions C198_dual_refuted.

Example C198_nontrivial (R : rcfType) :
  eigendecomposition (second_moment (row_mx (one_view R) (one_view R))) (pair_values R) (pair_vectors R) /\
  (let vals := primal_vals 1 (isT : (1 <= 1 + 1)%N) (pair_values R) in
   let W := weight (primal_param 1 (isT : (1 <= 1 + 1)%N) (pair_values R) (pair_vectors R)) vals in
   (usubmx W)^T *m usubmx W \in unitmx) /\
  (forall j : 'I_(1 + 1), (j < 1 + 1 - 1)%N || (pair_values R 0 j < 1) -> pair_values R 0 j = 0) /\
  (forall n, eigendecomposition (half R n + half R n) (const_mx 1) 1%:M /\
     nystrom_dim 1 (eigs_values (leqnn n) (const_mx 1 : 'rV[R]_n)) = n /\
     (forall j : 'I_n, (j < n - n)%N || ((const_mx 1 : 'rV[R]_n) 0 j < 1) -> (const_mx 1 : 'rV[R]_n) 0 j = 0)).
Proof.
split; first exact: views_decomposition. split; first exact: views_unit. split; first exact: views_left.
move=> n. split; first exact: half_decomposition. split; first exact: half_kept. exact: half_left.
Qed.
