(** Property theorems C191, C192: centered kernels and the origin of the feature space; outputs of a
    centered principal component analysis. *)
From mathcomp Require Import all_ssreflect all_algebra.
From Verif Require Import NystromM MatrixSpec KpcaM KpcaSpec LssvmM LssvmSpec LssvmLossProofs CenterM OriginSpec OriginProofs ScoresSpec ScoresProofs OriginExamples.
Set Implicit Arguments. Unset Strict Implicit. Unset Printing Implicit Defensive.
Import GRing.Theory Num.Theory.
Local Open Scope ring_scope.

(** * C191 *)

(** Centering does not distinguish the kernels [k(x, y)] and [k(x, y) + f(x) + f(y)]: on the sample,
    between new points and the sample, between new points. *)
Theorem C191_centering :
  forall (R : rcfType) n m p (K : 'M[R]_n) (Kx : 'M[R]_(m, n)) (Ky : 'M[R]_(p, n)) (Kxy : 'M[R]_(m, p))
         (f : 'cV[R]_n) (fx : 'cV[R]_m) (fy : 'cV[R]_p), (0 < n)%N ->
    center_sample (other_origin f f K) = center_sample K /\
    center_oos (other_origin f f K) (other_origin fx f Kx) = center_oos K Kx /\
    center_new (other_origin f f K) (other_origin fx f Kx) (other_origin fy f Ky) (other_origin fx fy Kxy) = center_new K Kx Ky Kxy.
Proof.
  move=> R n m p K Kx Ky Kxy f fx fy Hn. split; [|split].
  - exact: center_sample_origin.
  - exact: center_oos_origin.
  - exact: center_new_origin.
Qed.
Print Assumptions C191_centering.

(** Features seen from another point, and distances instead of inner products, are such kernels. *)
Theorem C191_features :
  forall (R : rcfType) n m d (X : 'M[R]_(n, d)) (Z : 'M[R]_(m, d)) (c : 'rV[R]_d), (0 < n)%N ->
    center_sample (seen_from c X *m (seen_from c X)^T) = center_sample (X *m X^T) /\
    center_oos (seen_from c X *m (seen_from c X)^T) (seen_from c Z *m (seen_from c X)^T) = center_oos (X *m X^T) (Z *m X^T) /\
    center_sample (half_distances X X) = center_sample (X *m X^T) /\
    center_oos (half_distances X X) (half_distances Z X) = center_oos (X *m X^T) (Z *m X^T).
Proof.
  move=> R n m d X Z c Hn. rewrite !seen_from_origin !half_distances_origin. split; [|split; [|split]].
  - exact: center_sample_origin.
  - exact: center_oos_origin.
  - exact: center_sample_origin.
  - exact: center_oos_origin.
Qed.
Print Assumptions C191_features.

(** Centering the kernel matrices is centering the features. *)
Theorem C191_explicit :
  forall (R : rcfType) n m d (Phi : 'M[R]_(n, d)) (phi : 'M[R]_(m, d)), (0 < n)%N ->
    center_sample (Phi *m Phi^T) = center_features Phi Phi *m (center_features Phi Phi)^T /\
    center_oos (Phi *m Phi^T) (phi *m Phi^T) = center_features Phi phi *m (center_features Phi Phi)^T.
Proof. move=> R n m d Phi phi Hn. split; [exact: center_explicit | exact: center_explicit_oos]. Qed.
Print Assumptions C191_explicit.

(** An LS-SVM makes the same predictions with both kernels: the dual variables are the same, the
    bias makes up for the difference. *)
Theorem C191_lssvm :
  forall (R : rcfType) n q (K : 'M[R]_n) (gamma : R) (f : 'cV[R]_n) (Y h : 'M[R]_(n, q)) (b : 'rV[R]_q),
    solve_dual K gamma Y = Some (h, b) ->
    solve_dual (other_origin f f K) gamma Y = Some (h, b - f^T *m h) /\
    forall m (fx : 'cV[R]_m) (Kx : 'M[R]_(m, n)),
      predict_dual 1 h (b - f^T *m h) (other_origin fx f Kx) = predict_dual 1 h b Kx.
Proof. move=> R n q K gamma f Y h b S. split; [exact: solve_other | move=> m fx Kx; exact: (predict_other _ _ _ S)]. Qed.
Print Assumptions C191_lssvm.

(** In particular with the centered kernel. *)
Theorem C191_lssvm_centered :
  forall (R : rcfType) n q (K : 'M[R]_n) (gamma : R) (Y h : 'M[R]_(n, q)) (b : 'rV[R]_q),
    solve_dual K gamma Y = Some (h, b) ->
    exists b', solve_dual (center_sample K) gamma Y = Some (h, b') /\
      forall m (Kx : 'M[R]_(m, n)), predict_dual 1 h b' (center_oos K Kx) = predict_dual 1 h b Kx.
Proof. exact train_centered. Qed.
Print Assumptions C191_lssvm_centered.

(** With the inputs moved, the linear kernel makes the same predictions. *)
Theorem C191_lssvm_moved :
  forall (R : rcfType) n q d (X : 'M[R]_(n, d)) (c : 'rV[R]_d) (gamma : R) (Y h : 'M[R]_(n, q)) (b : 'rV[R]_q),
    solve_dual (X *m X^T) gamma Y = Some (h, b) ->
    exists b', solve_dual (seen_from c X *m (seen_from c X)^T) gamma Y = Some (h, b') /\
      forall m (Z : 'M[R]_(m, d)), predict_dual 1 h b' (seen_from c Z *m (seen_from c X)^T) = predict_dual 1 h b (Z *m X^T).
Proof. exact train_moved. Qed.
Print Assumptions C191_lssvm_moved.

(** A kernel that is positive on the vectors that sum to zero is enough: its centered version is
    positive, and an LS-SVM can be trained. *)
Theorem C191_conditional :
  forall (R : rcfType) n (K : 'M[R]_n), (0 < n)%N -> K^T = K ->
    (psd (center_sample K) <-> conditionally_psd K) /\
    (conditionally_psd K -> forall q (Y : 'M[R]_(n, q)) (gamma : R), 0 < gamma -> exists h b, solve_dual K gamma Y = Some (h, b)).
Proof.
  move=> R n K Hn S. split; first exact: center_psd. move=> P q Y gamma G. exact: conditional_solves.
Qed.
Print Assumptions C191_conditional.

(** For instance minus half the squared distances, which is not positive, and makes the predictions
    of the linear kernel. *)
Theorem C191_distances :
  forall (R : rcfType) n q d (X : 'M[R]_(n, d)) (gamma : R) (Y h : 'M[R]_(n, q)) (b : 'rV[R]_q),
    solve_dual (X *m X^T) gamma Y = Some (h, b) ->
    exists b', solve_dual (half_distances X X) gamma Y = Some (h, b') /\
      forall m (Z : 'M[R]_(m, d)), predict_dual 1 h b' (half_distances Z X) = predict_dual 1 h b (Z *m X^T).
Proof. exact train_distances. Qed.
Print Assumptions C191_distances.

(** Two points: training succeeds, and the distances are conditionally positive but not positive. *)
Example C191_nontrivial (R : rcfType) :
  solve_dual (ex_features R *m (ex_features R)^T) 1 (ex_targets R) = Some (ex_hidden (R := R) 3%:R^-1, (1 * 3%:R^-1)%:M) /\
  center_features (two_points R) (two_points R) = opposite R /\
  conditionally_psd (half_distances (two_points R) (two_points R)) /\ ~ psd (half_distances (two_points R) (two_points R)).
Proof.
  split; last by split; [exact: two_centered | exact: two_conditional].
  apply: ex_dual; first exact: ltr01. by rewrite -(natrD R 1 1) -(natrD R 2 1) mulVf // pnatr_eq0.
Qed.

(** * C192 *)

(** In dual, on a centered kernel: over the sample, the outputs have mean zero, are uncorrelated, and
    their variances are those announced, up to a square and the number of points; the latent
    variables have mean zero, are uncorrelated and all have the same variance. *)
Theorem C192_dual :
  forall (R : rcfType) n (K : 'M[R]_n) (s : 'rV[R]_n) (V : 'M[R]_n) (eps : R) (k : nat) (Hk : (k <= n)%N),
    K^T = K -> eigendecomposition (center_sample K) s V -> 0 < eps -> (0 < n)%N ->
    let H := dual_param eps Hk s V in let vals := dual_vals eps Hk s in
    let O := forward_dual H (center_sample K) in let L := h_dual H vals (center_sample K) in
    (forall j, component_mean O j = 0) /\ covariance O = diag_mx (\row_i (n%:R * vals 0 i ^+ 2)) /\
    (forall j, component_mean L j = 0) /\ covariance L = n%:R%:M.
Proof.
  move=> R n K s V eps k Hk S E e0 Hn H vals O L. have Z := centered_kernel Hn S. split; [|split; [|split]].
  - exact: dual_means.
  - exact: dual_cov.
  - exact: (dual_latent_means E).
  - exact: (dual_latent_cov E).
Qed.
Print Assumptions C192_dual.

(** In primal, on centered features: the variances are the squares of those announced, the latent
    variables have variance one. *)
Theorem C192_primal :
  forall (R : rcfType) n d (Phi : 'M[R]_(n, d)) (s : 'rV[R]_d) (V : 'M[R]_d) (eps : R) (k : nat) (Hk : (k <= d)%N),
    let C := center_features Phi Phi in
    eigendecomposition (second_moment C) s V -> 0 < eps -> (0 < n)%N ->
    let U := primal_param eps Hk s V in let vals := primal_vals eps Hk s in
    let O := forward_primal U vals C in let L := h_primal U vals C in
    (forall j, component_mean O j = 0) /\ covariance O = diag_mx (\row_i (vals 0 i ^+ 2)) /\
    (forall j, component_mean L j = 0) /\ covariance L = 1%:M.
Proof.
  move=> R n d Phi s V eps k Hk C E e0 Hn U vals O L. have Z : (ones R n)^T *m C = 0 by exact: centered_phi.
  split; [|split; [|split]].
  - exact: primal_means.
  - exact: primal_cov.
  - exact: primal_latent_means.
  - exact: primal_latent_cov.
Qed.
Print Assumptions C192_primal.

(** The components are numbered by decreasing variance, all positive. *)
Theorem C192_order :
  forall (R : rcfType) n (M : 'M[R]_n) (s : 'rV[R]_n) (V : 'M[R]_n) (eps : R) (k : nat) (Hk : (k <= n)%N),
    eigendecomposition M s V -> 0 < eps -> (0 < n)%N ->
    (forall i, 0 < primal_vals eps Hk s 0 i) /\ (forall i, 0 < dual_vals eps Hk s 0 i) /\
    forall i j : 'I_(nystrom_dim eps (eigs_values Hk s)), (i <= j)%N ->
      primal_vals eps Hk s 0 j <= primal_vals eps Hk s 0 i /\ dual_vals eps Hk s 0 j <= dual_vals eps Hk s 0 i.
Proof.
  move=> R n M s V eps k Hk E e0 Hn. split; [exact: pvals_pos | split; [exact: dual_positive|]].
  move=> i j ij. split; last exact: (dual_decreasing E). apply: vals_decreasing => //. exact: (proj2 (proj2 E)).
Qed.
Print Assumptions C192_order.

(** Two points on a line: the centered kernel matrix and the centered features. *)
Example C192_nontrivial (R : rcfType) :
  (two_points R *m (two_points R)^T)^T = two_points R *m (two_points R)^T /\
  eigendecomposition (center_sample (two_points R *m (two_points R)^T)) (two_values R) (two_vectors R) /\
  eigendecomposition (second_moment (center_features (two_points R) (two_points R))) (const_mx 1) 1%:M /\
  nystrom_dim 1 (eigs_values (ltnSn 1 : (1 <= 2)%N) (two_values R)) = 1%N.
Proof.
  split; first by rewrite trmx_mul trmxK. split; first exact: two_decomposition.
  split; first by rewrite two_centered; exact: two_moment. exact: two_kept.
Qed.
