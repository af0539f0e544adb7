(** Property theorems C205 and C206: the systems of a ridge regression. *)
From mathcomp Require Import all_ssreflect all_fingroup all_algebra.
From Verif Require Import NystromM MatrixSpec KpcaM KpcaSpec LssvmM LssvmSpec LssvmMProofs StableExamples NearSpec NearProofs NearExamples
  RidgeM RidgeSpec RidgeProofs RidgeExamples.
Set Implicit Arguments. Unset Strict Implicit. Unset Printing Implicit Defensive.
Import GRing.Theory Num.Theory Order.POrderTheory Order.TotalTheory.
Local Open Scope ring_scope.

(** * C205 *)

(** In dual the system has exactly one solution: the errors on the sample are proportional to the
    dual variables. *)
Theorem C205_solution :
  forall (R : rcfType) n q (K : 'M[R]_n) (gamma : R) (Y : 'M[R]_(n, q)), psd K -> 0 < gamma ->
    (exists h, ridge_dual K gamma Y = Some h) /\
    (forall h, ridge_dual K gamma Y = Some h <-> Y - ridge_predict_dual h K = gamma^-1 *: h).
Proof. move=> R n q K gamma Y P G. split; [exact: ridge_exists | move=> h; exact: ridge_exactly]. Qed.
Print Assumptions C205_solution.
(** The weights it stands for minimise the squared weights over [gamma] plus the squared errors,
    and nothing else does. *)
Theorem C205_minimum :
  forall (R : rcfType) n d q (Phi : 'M[R]_(n, d)) (gamma : R) (Y h : 'M[R]_(n, q)), 0 < gamma ->
    ridge_dual (Phi *m Phi^T) gamma Y = Some h ->
  forall w, let best := Phi^T *m h in
    ridge_objective Phi Y gamma^-1 best <= ridge_objective Phi Y gamma^-1 w /\
    (ridge_objective Phi Y gamma^-1 w <= ridge_objective Phi Y gamma^-1 best -> w = best).
Proof.
  move=> R n d q Phi gamma Y h G S w best. have i0 : 0 < gamma^-1 by rewrite invr_gt0.
  have E := proj1 (ridge_exactly (@outer_psd R n d Phi) G Y h) S.
  split; [exact: (ridge_best w (ltW i0) E) | exact: (ridge_only i0 E)].
Qed.
Print Assumptions C205_minimum.
(** A LS-SVM is a ridge regression, with the inverse regularisation, of the targets without their
    bias: the one whose dual variables have a zero sum. *)
Theorem C205_lssvm :
  forall (R : rcfType) n q (K : 'M[R]_n) (gamma : R) (Y h : 'M[R]_(n, q)) b, psd K -> 0 < gamma -> (0 < n)%N ->
    (solve_dual K gamma^-1 Y = Some (h, b) <-> ridge_dual K gamma (Y - rows_all n b) = Some h /\ sums_to_zero h).
Proof. move=> R n q K gamma Y h b P G N. exact: lssvm_is_ridge. Qed.
Print Assumptions C205_lssvm.
(** With centered kernel and targets both are the same model. *)
Theorem C205_centered :
  forall (R : rcfType) n q (K : 'M[R]_n) (gamma : R) (Y h : 'M[R]_(n, q)), psd K -> 0 < gamma -> (0 < n)%N ->
    columns_sum_to_zero K -> sums_to_zero Y -> ridge_dual K gamma Y = Some h ->
    solve_dual K gamma^-1 Y = Some (h, 0) /\
    (forall kappa m (k : 'M[R]_(m, n)), predict_dual kappa h 0 k = ridge_predict_dual h k).
Proof.
  move=> R n q K gamma Y h P G N C Z S. split; first exact: (centered_no_bias P G N C Z S).
  move=> kappa m k. by rewrite /predict_dual /ridge_predict_dual mulmx0 scaler0 addr0.
Qed.
Print Assumptions C205_centered.
(** Other targets: the predictions on the sample and the errors move together at most as much as
    the targets. *)
Theorem C205_contracts :
  forall (R : rcfType) n q (K : 'M[R]_n) (gamma : R) (Y Y' h h' : 'M[R]_(n, q)), psd K -> 0 < gamma ->
    ridge_dual K gamma Y = Some h -> ridge_dual K gamma Y' = Some h' ->
  forall j, let f i := ridge_predict_dual h K i j in let f' i := ridge_predict_dual h' K i j in
    \sum_i (f i - f' i) ^+ 2 + \sum_i ((Y i j - f i) - (Y' i j - f' i)) ^+ 2 <= \sum_i (Y i j - Y' i j) ^+ 2.
Proof. move=> R n q K gamma Y Y' h h' P G S S' j. exact: (ridge_contracts P G j S S'). Qed.
Print Assumptions C205_contracts.
(** Predictions at new points are bounded by the targets and close at points that are close for the
    kernel. *)
Theorem C205_bounded :
  forall (R : rcfType) n m q (K : 'M[R]_n) (k : 'M[R]_(m, n)) (G : 'M[R]_m) (gamma : R) (Y h : 'M[R]_(n, q)),
    psd K -> psd (block_mx K k^T k G) -> 0 < gamma -> ridge_dual K gamma Y = Some h ->
  forall j x,
    4%:R * ridge_predict_dual h k x j ^+ 2 <= gamma * (\sum_i Y i j ^+ 2) * G x x /\
    (forall y, 4%:R * (ridge_predict_dual h k x j - ridge_predict_dual h k y j) ^+ 2 <=
               gamma * (\sum_i Y i j ^+ 2) * kernel_dist2 G x y).
Proof.
  move=> R n m q K k G gamma Y h P B G0 S j x. split; first exact: (ridge_bounded P G0 j x B S).
  move=> y. exact: (ridge_near P G0 j x y B S).
Qed.
Print Assumptions C205_bounded.
Example C205_nontrivial : forall R : rcfType,
  psd (block_mx (K3 R) (K3 R)^T (K3 R) (K3 R)) /\ ridge_dual (K3 R) 1 (Y3 R) = Some (h3 R) /\
  ridge_predict_dual (h3 R) (K3 R) 0 0 = 1 /\ ridge_dual ((1%:M : 'M[R]_3) *m 1%:M^T) 1 (Y3 R) = Some (h3 R) /\
  psd (K2c R) /\ columns_sum_to_zero (K2c R) /\ sums_to_zero (Y2c R) /\ ridge_dual (K2c R) 1 (Y2c R) = Some (h2c R).
Proof.
  move=> R. split; first exact: joint3. split; first exact: ridge3.
  split; first by rewrite /ridge_predict_dual mul1mx mxE.
  split; first exact: ridge3_features. split; first exact: K2c_psd. split; first exact: K2c_centered.
  split; [exact: Y2c_centered | exact: ridge2c].
Qed.

(** * C206 *)

(** What the primal system computes: the weights of the dual system with the regularisation divided
    by the number of points, multiplied by this number. *)
Theorem C206_factor :
  forall (R : rcfType) n d q (Phi : 'M[R]_(n, d)) (gamma : R) (Y h : 'M[R]_(n, q)), (0 < n)%N -> 0 < gamma ->
    ridge_dual (Phi *m Phi^T) (gamma / n%:R) Y = Some h ->
  exists w, ridge_primal Phi gamma Y = Some w /\
    forall kappa m (phi : 'M[R]_(m, d)),
      ridge_predict_primal kappa w phi = (Num.sqrt kappa * n%:R) *: ridge_predict_dual h (phi *m Phi^T).
Proof.
  move=> R n d q Phi gamma Y h N G S. exists (n%:R *: (Phi^T *m h)). split; first exact: (ridge_primal_dual N G S).
  move=> kappa m phi. by rewrite /ridge_predict_primal /ridge_predict_dual -scalemxAr -scalemxAl scalerA mulrC mulmxA.
Qed.
Print Assumptions C206_factor.
(** Both always have exactly one solution. *)
Theorem C206_solutions :
  forall (R : rcfType) n d q (Phi : 'M[R]_(n, d)) (gamma : R) (Y : 'M[R]_(n, q)), (0 < n)%N -> 0 < gamma ->
    (exists h, ridge_dual (Phi *m Phi^T) gamma Y = Some h) /\ (exists w, ridge_primal Phi gamma Y = Some w).
Proof.
  move=> R n d q Phi gamma Y N G. split; first exact: (ridge_exists (@outer_psd R n d Phi) G).
  have gn : 0 < gamma / n%:R by rewrite divr_gt0 // ltr0n.
  have [h S] := ridge_exists (@outer_psd R n d Phi) gn Y. eexists. exact: (ridge_primal_dual N G S).
Qed.
Print Assumptions C206_solutions.
(** From two points on they predict alike only when no feature correlates with any target, where
    both predict zero everywhere. *)
Theorem C206_exactly :
  forall (R : rcfType) n d q (Phi : 'M[R]_(n, d)) (gamma : R) (Y h : 'M[R]_(n, q)) w, (1 < n)%N -> 0 < gamma ->
    ridge_dual (Phi *m Phi^T) gamma Y = Some h -> ridge_primal Phi gamma Y = Some w ->
    ((forall m (phi : 'M[R]_(m, d)), ridge_predict_primal 1 w phi = ridge_predict_dual h (phi *m Phi^T)) <-> Phi^T *m Y = 0).
Proof.
  move=> R n d q Phi gamma Y h w N G S Pr.
  have N0 : (0 < n)%N by exact: ltn_trans N.
  have E := ridge_same_weights G N S Pr.
  split=> [A | Z].
    apply/E. have := A d 1%:M. by rewrite /ridge_predict_primal /ridge_predict_dual sqrtr1 scale1r !mul1mx.
  move=> m phi. by rewrite /ridge_predict_primal /ridge_predict_dual sqrtr1 scale1r (proj2 E Z) mulmxA.
Qed.
Print Assumptions C206_exactly.
Theorem C206_refuted :
  forall R : rcfType, exists (Phi : 'M[R]_3) (Y h w : 'M[R]_(3, 1)),
    ridge_dual (Phi *m Phi^T) 1 Y = Some h /\ ridge_primal Phi 1 Y = Some w /\
    exists m (phi : 'M[R]_(m, 3)), ridge_predict_primal 1 w phi <> ridge_predict_dual h (phi *m Phi^T).
Proof.
  move=> R. have [w Pr] := ridge3_primal R. exists 1%:M, (Y3 R), (h3 R), w.
  split; first exact: ridge3_features. split=> //. exists 3%N, 1%:M => E.
  apply: (@Y3_moment R). apply/(C206_exactly (isT : (1 < 3)%N) (@ltr01 R) (ridge3_features R) Pr) => m phi.
  have W : w = 1%:M^T *m h3 R.
    move: E. by rewrite /ridge_predict_primal /ridge_predict_dual sqrtr1 scale1r !mul1mx.
  by rewrite W /ridge_predict_primal /ridge_predict_dual sqrtr1 scale1r mulmxA.
Qed.
Print Assumptions C206_refuted.
(** With a single point they agree. *)
Theorem C206_single_partial :
  forall (R : rcfType) d q (Phi : 'M[R]_(1, d)) (gamma : R) (Y h : 'M[R]_(1, q)), 0 < gamma ->
    ridge_dual (Phi *m Phi^T) gamma Y = Some h ->
  exists w, ridge_primal Phi gamma Y = Some w /\
    forall m (phi : 'M[R]_(m, d)), ridge_predict_primal 1 w phi = ridge_predict_dual h (phi *m Phi^T).
Proof.
  move=> R d q Phi gamma Y h G S. exists (Phi^T *m h). split; first exact: (ridge_single (isT : (0 < 1)%N) G (erefl _) S).
  move=> m phi. by rewrite /ridge_predict_primal /ridge_predict_dual sqrtr1 scale1r mulmxA.
Qed.
Print Assumptions C206_single_partial.
Example C206_nontrivial : forall R : rcfType,
  ridge_dual ((1%:M : 'M[R]_3) *m 1%:M^T) 1 (Y3 R) = Some (h3 R) /\ (exists w, ridge_primal (1%:M : 'M[R]_3) 1 (Y3 R) = Some w) /\
  (1%:M : 'M[R]_3)^T *m Y3 R <> 0.
Proof. move=> R. split; first exact: ridge3_features. split; [exact: ridge3_primal | exact: Y3_moment]. Qed.
