(** Property theorems C204: outputs of models at nearby points. *)
From mathcomp Require Import all_ssreflect all_fingroup all_algebra.
From Verif Require Import NystromM MatrixSpec KpcaM KpcaSpec LssvmM LssvmSpec StableExamples NearSpec NearProofs NearExamples.
Set Implicit Arguments. Unset Strict Implicit. Unset Printing Implicit Defensive.
Import GRing.Theory Num.Theory Order.POrderTheory Order.TotalTheory.
Local Open Scope ring_scope.

(** * C204 *)

(** [k] are the kernel values between the new points and the sample, [G] those between the new
    points; with those of the sample they make one positive matrix.  Whatever the dual variables,
    the predictions at two points differ at most by the norm of the weights times the distance of
    the points for the kernel. *)
Theorem C204_predictions :
  forall (R : rcfType) n m q (K : 'M[R]_n) (k : 'M[R]_(m, n)) (G : 'M[R]_m), psd (block_mx K k^T k G) ->
  forall (kappa : R) (h : 'M[R]_(n, q)) b x y j,
    (predict_dual kappa h b k x j - predict_dual kappa h b k y j) ^+ 2 <= weight_norm2 K h j * kernel_dist2 G x y.
Proof. move=> R n m q K k G P kappa h b x y j. exact: (near_predictions P). Qed.
Print Assumptions C204_predictions.
(** For a trained model the norm of the weights is at most the spread of the targets, around any
    value, over twice the root of the regularisation. *)
Theorem C204_trained :
  forall (R : rcfType) n m q (K : 'M[R]_n) (k : 'M[R]_(m, n)) (G : 'M[R]_m) (gamma : R) (Y h : 'M[R]_(n, q)) b,
    psd (block_mx K k^T k G) -> (0 < n)%N -> 0 < gamma -> solve_dual K gamma Y = Some (h, b) ->
  forall j (c : R),
    4%:R * gamma * weight_norm2 K h j <= \sum_i (Y i j - c) ^+ 2 /\
    (forall kappa x y, 4%:R * gamma * (predict_dual kappa h b k x j - predict_dual kappa h b k y j) ^+ 2 <=
                       (\sum_i (Y i j - c) ^+ 2) * kernel_dist2 G x y) /\
    (forall kappa x, 4%:R * gamma * (predict_dual kappa h b k x j - Num.sqrt kappa * b 0 j) ^+ 2 <=
                     (\sum_i (Y i j - c) ^+ 2) * G x x).
Proof.
  move=> R n m q K k G gamma Y h b P N G0 S j c. split; first exact: (trained_weights P N G0 S).
  split=> kappa x; [move=> y; exact: (near_trained P N G0 S) | exact: (near_trained_bias P N G0 S)].
Qed.
Print Assumptions C204_trained.
(** The bound is reached. *)
Theorem C204_reached :
  forall R : rcfType,
    4%:R * 1 * (predict_dual 1 (h3 R) 0 (K3 R) 0 0 - predict_dual 1 (h3 R) 0 (K3 R) 1 0) ^+ 2 =
    (\sum_i (Y3 R i 0 - 0) ^+ 2) * kernel_dist2 (K3 R) 0 1.
Proof. move=> R. rewrite values3 spread3 dist3 // mulr1 -natrX -!natrM. by []. Qed.
Print Assumptions C204_reached.
(** The outputs of a kernel principal component analysis, each measured in the deviation of its
    component, differ at most by the distance of the points; together they differ at most by the
    explained deviation times this distance.  In dual the variances are counted for the sum over
    the points. *)
Theorem C204_components_dual :
  forall (R : rcfType) n m (K : 'M[R]_n) (s : 'rV[R]_n) V (eps : R) c (Hc : (c <= n)%N) (k : 'M[R]_(m, n)) (G : 'M[R]_m),
    eigendecomposition K s V -> 0 < eps -> (0 < n)%N -> psd (block_mx K k^T k G) ->
  forall x y,
    let out z i := forward_dual (dual_param eps Hc s V) k z i in let vals := dual_vals eps Hc s in
    \sum_i (out x i - out y i) ^+ 2 / (n%:R * vals 0 i) <= kernel_dist2 G x y /\
    \sum_i (out x i - out y i) ^+ 2 <= n%:R * model_variance vals * kernel_dist2 G x y.
Proof.
  move=> R n m K s V eps c Hc k G E e0 N P x y. split; [exact: (near_dual Hc E e0 N P) | exact: (near_dual_total Hc E e0 N P)].
Qed.
Print Assumptions C204_components_dual.
Theorem C204_components_primal :
  forall (R : rcfType) n d m (Phi : 'M[R]_(n, d)) (s : 'rV[R]_d) V (eps : R) c (Hc : (c <= d)%N) (phi : 'M[R]_(m, d)),
    eigendecomposition (second_moment Phi) s V -> 0 < eps ->
  forall x y,
    let vals := primal_vals eps Hc s in let out z i := forward_primal (primal_param eps Hc s V) vals phi z i in
    \sum_i (out x i - out y i) ^+ 2 / vals 0 i <= \sum_l (phi x l - phi y l) ^+ 2 /\
    \sum_i (out x i - out y i) ^+ 2 <= model_variance vals * \sum_l (phi x l - phi y l) ^+ 2.
Proof.
  move=> R n d m Phi s V eps c Hc phi E e0 x y. split; [exact: (near_primal Hc phi E e0) | exact: (near_primal_total Hc phi E e0)].
Qed.
Print Assumptions C204_components_primal.
(** Points that the kernel does not tell apart have the same outputs. *)
Theorem C204_same :
  forall (R : rcfType) n m (K : 'M[R]_n) (k : 'M[R]_(m, n)) (G : 'M[R]_m), psd (block_mx K k^T k G) ->
  forall x y, kernel_dist2 G x y = 0 ->
    (forall q (kappa : R) (h : 'M[R]_(n, q)) b j, predict_dual kappa h b k x j = predict_dual kappa h b k y j) /\
    (forall q (H : 'M[R]_(n, q)) i, forward_dual H k x i = forward_dual H k y i).
Proof.
  move=> R n m K k G P x y Z.
  have S : forall q (kappa : R) (h : 'M[R]_(n, q)) b j, predict_dual kappa h b k x j = predict_dual kappa h b k y j.
    move=> q kappa h b j. have := near_predictions P kappa h b x y j. rewrite Z mulr0 => H.
    apply/eqP. rewrite -subr_eq0 -sqrf_eq0 eq_le H sqr_ge0. by [].
  split=> // q H i. have := S q 1 H 0 i. by rewrite /predict_dual mulmx0 scaler0 addr0.
Qed.
Print Assumptions C204_same.
Example C204_nontrivial : forall R : rcfType,
  psd (block_mx (K3 R) (K3 R)^T (K3 R) (K3 R)) /\ solve_dual (K3 R) 1 (Y3 R) = Some (h3 R, 0) /\
  predict_dual 1 (h3 R) 0 (K3 R) 0 0 - predict_dual 1 (h3 R) 0 (K3 R) 1 0 = 2%:R /\ kernel_dist2 (K3 R) 0 1 = 2%:R /\
  eigendecomposition (K3 R) (const_mx 1) 1%:M /\ eigendecomposition (second_moment (phi3 R)) (const_mx 3%:R^-1) 1%:M.
Proof.
  move=> R. split; first exact: joint3. split; first exact: solved3. split; first exact: values3. split; first exact: dist3.
  split; [exact: decomposition3 | exact: features3].
Qed.
