(** Property theorems C61, C62, C120, C121: least-squares support vector machines. *)
From mathcomp Require Import all_ssreflect all_algebra.
From Verif Require Import MatrixSpec KpcaM KpcaSpec KpcaMProofs LssvmM LssvmSpec LssvmMProofs LssvmLossProofs.
Set Implicit Arguments. Unset Strict Implicit. Unset Printing Implicit Defensive.
Import GRing.Theory Num.Theory.
Local Open Scope ring_scope.

(** * C61 *)

(** The system is regular and its solution meets the optimality conditions: the residual is
    gamma times the dual variables, which sum to zero. *)
Theorem C61_solution_meets_conditions :
  forall (R : rcfType) n (K : 'M[R]_n) (gamma : R),
    psd K -> 0 < gamma -> (0 < n)%N ->
    forall q (Y : 'M[R]_(n, q)), exists h b, solve_dual K gamma Y = Some (h, b) /\ kkt K gamma Y h b.
Proof. exact @solve_dual_kkt. Qed.
Print Assumptions C61_solution_meets_conditions.

(** Nothing else meets them. *)
Theorem C61_unique :
  forall (R : rcfType) n (K : 'M[R]_n) (gamma : R),
    psd K -> 0 < gamma -> (0 < n)%N ->
    forall q (Y h : 'M[R]_(n, q)) (b : 'rV[R]_q), kkt K gamma Y h b -> solve_dual K gamma Y = Some (h, b).
Proof. exact @solve_dual_unique. Qed.
Print Assumptions C61_unique.

(** The residual of the predictions on the training points. *)
Theorem C61_residual :
  forall (R : rcfType) n q (K : 'M[R]_n) (gamma : R) (Y h : 'M[R]_(n, q)) (b : 'rV[R]_q),
    psd K -> 0 < gamma -> (0 < n)%N -> solve_dual K gamma Y = Some (h, b) ->
    Y - predict_dual 1 h b K = gamma *: h.
Proof. exact @residual_one. Qed.
Print Assumptions C61_residual.

(** What meets the conditions minimises the regularised least-squares problem over all
    weights and biases. *)
Theorem C61_optimal :
  forall (R : rcfType) n d q (Phi : 'M[R]_(n, d)) (Y : 'M[R]_(n, q)) (gamma : R) (h : 'M[R]_(n, q)) (b : 'rV[R]_q) (w' : 'M[R]_(d, q)) (b' : 'rV[R]_q),
    0 <= gamma -> kkt (Phi *m Phi^T) gamma Y h b ->
    objective Phi gamma Y (Phi^T *m h) b <= objective Phi gamma Y w' b'.
Proof. exact @kkt_optimal. Qed.
Print Assumptions C61_optimal.

Example C61_nontrivial (R : rcfType) :
  psd (ex_features R *m (ex_features R)^T) /\
  solve_dual (ex_features R *m (ex_features R)^T) 1 (ex_targets R) = Some (ex_hidden (R := R) 3%:R^-1, (1 * 3%:R^-1)%:M) /\
  kkt (ex_features R *m (ex_features R)^T) 1 (ex_targets R) (ex_hidden (R := R) 3%:R^-1) (1 * 3%:R^-1)%:M.
Proof.
  have E : (3%:R^-1 * (1 + 1 + 1) = 1 :> R) by rewrite -(natrD R 1 1) -(natrD R 2 1) mulVf // pnatr_eq0.
  split; [exact: outer_psd | split; [exact: ex_dual (@ltr01 R) E | exact: ex_kkt E]].
Qed.

(** * C62 *)

(** One feature, two points, gamma 1: the predictions differ. *)
Theorem C62_differ_refuted :
  forall R : rcfType, exists h b w b',
    solve_dual (ex_features R *m (ex_features R)^T) 1 (ex_targets R) = Some (h, b) /\
    solve_primal (ex_features R) 1 (ex_targets R) = Some (w, b') /\
    predict_primal 1 w b' (ex_features R) 0 0 != predict_dual 1 h b (ex_features R *m (ex_features R)^T) 0 0.
Proof. exact ex_differ. Qed.
Print Assumptions C62_differ_refuted.

(** A constant feature, [n] points and gamma [n - 1]: the primal system is singular, whatever
    the targets, although gamma is positive. *)
Theorem C62_singular_refuted :
  forall (R : rcfType) n q (Y : 'M[R]_(n.+2, q)), solve_primal (ones R n.+2) n.+1%:R Y = None.
Proof. exact @constant_singular. Qed.
Print Assumptions C62_singular_refuted.

(** Even with the weights that correspond to the dual variables, the predictions agree only for a
    scale of one or when they are those of the bias alone. *)
Theorem C62_scale_refuted :
  forall (R : rcfType) n d q (kappa : R) (Phi : 'M[R]_(n, d)) (h : 'M[R]_(n, q)) b m (X : 'M[R]_(m, d)),
    predict_primal kappa (Phi^T *m h) b X - predict_dual kappa h b (X *m Phi^T) = (Num.sqrt kappa - 1) *: (X *m Phi^T *m h) /\
    (predict_primal kappa (Phi^T *m h) b X = predict_dual kappa h b (X *m Phi^T) <-> kappa = 1 \/ X *m Phi^T *m h = 0).
Proof. exact predict_scaled. Qed.
Print Assumptions C62_scale_refuted.

(** What the primal problem gives on centered features: [n] times the weights of the dual
    problem with gamma multiplied by [n]. *)
Theorem C62_centered_value :
  forall (R : rcfType) n d (Phi : 'M[R]_(n, d)), (0 < n)%N ->
    forall q (gamma : R) (Y h : 'M[R]_(n, q)) (b : 'rV[R]_q), 0 < gamma -> centered_features Phi ->
    solve_dual (Phi *m Phi^T) (n%:R * gamma) Y = Some (h, b) ->
    solve_primal Phi gamma Y = Some (n%:R *: (Phi^T *m h), b).
Proof. exact @centered_primal. Qed.
Print Assumptions C62_centered_value.

(** For one training point the two agree everywhere. *)
Theorem C62_single_point_partial :
  forall (R : rcfType) d q (Phi : 'rV[R]_d) (gamma : R) (Y : 'rV[R]_q),
    0 < gamma ->
    exists h b w,
      solve_dual (Phi *m Phi^T) gamma Y = Some (h, b) /\ solve_primal Phi gamma Y = Some (w, b) /\
      forall m (X : 'M[R]_(m, d)), predict_primal 1 w b X = predict_dual 1 h b (X *m Phi^T).
Proof. exact @single_point. Qed.
Print Assumptions C62_single_point_partial.

(** They would agree for every sample if the primal system used the sum instead of the mean
    of the products of features. *)
Theorem C62_unscaled_partial :
  forall (R : rcfType) n d (Phi : 'M[R]_(n, d)), (0 < n)%N ->
    forall q (gamma : R) (Y h : 'M[R]_(n, q)) (b : 'rV[R]_q), 0 < gamma ->
    solve_dual (Phi *m Phi^T) gamma Y = Some (h, b) ->
    linsolve (scaled_system Phi 1 gamma) (primal_rhs Phi Y) = Some (col_mx (Phi^T *m h) b) /\
    forall m (X : 'M[R]_(m, d)), predict_primal 1 (Phi^T *m h) b X = predict_dual 1 h b (X *m Phi^T).
Proof. move=> R n d Phi npos q gamma Y h b g H. split; [exact: unscaled_primal npos _ _ _ _ _ g H | exact: predict_alike]. Qed.
Print Assumptions C62_unscaled_partial.

Example C62_nontrivial (R : rcfType) :
  solve_primal (ex_features R) 1 (ex_targets R) = Some ((2%:R^-1)%:M, (4%:R^-1)%:M) /\
  centered_features (ex_hidden (1 : R)).
Proof.
  split; first exact: ex_primal.
  by move=> j; rewrite !big_ord_recl big_ord0 !mxE /= addr0 addNr.
Qed.

(** * C120 *)

(** Gamma 2, one output: some weights and bias have a lower loss than the solution. *)
Theorem C120_not_minimal_refuted :
  forall R : rcfType, exists h b w' b',
    solve_dual (ex_features R *m (ex_features R)^T) 2%:R (ex_targets R) = Some (h, b) /\
    lssvm_loss (ex_features R) 2%:R (ex_targets R) w' b' < lssvm_loss (ex_features R) 2%:R (ex_targets R) ((ex_features R)^T *m h) b.
Proof. exact ex_not_minimal. Qed.
Print Assumptions C120_not_minimal_refuted.

(** The loss is the objective for the regularisation [q / gamma], up to a positive factor. *)
Theorem C120_loss_value :
  forall (R : rcfType) n d q (Phi : 'M[R]_(n, d)) (gamma : R) (Y : 'M[R]_(n, q)) (w : 'M[R]_(d, q)) (b : 'rV[R]_q),
    (0 < q)%N -> 0 < gamma ->
    lssvm_loss Phi gamma Y w b = gamma / (n * q)%:R * objective Phi (q%:R / gamma) Y w b.
Proof. exact @loss_objective. Qed.
Print Assumptions C120_loss_value.

(** So the solution minimises it when the square of gamma is the number of outputs. *)
Theorem C120_minimal_partial :
  forall (R : rcfType) n d q (Phi : 'M[R]_(n, d)) (gamma : R) (Y h : 'M[R]_(n, q)) (b : 'rV[R]_q) (w' : 'M[R]_(d, q)) (b' : 'rV[R]_q),
    (0 < n)%N -> (0 < q)%N -> 0 < gamma -> gamma ^+ 2 = q%:R -> solve_dual (Phi *m Phi^T) gamma Y = Some (h, b) ->
    lssvm_loss Phi gamma Y (Phi^T *m h) b <= lssvm_loss Phi gamma Y w' b'.
Proof. exact @solution_minimises. Qed.
Print Assumptions C120_minimal_partial.

(** Gamma 1 and one output: the hypotheses are met. *)
Example C120_nontrivial (R : rcfType) :
  (1 : R) ^+ 2 = 1%:R /\
  solve_dual (ex_features R *m (ex_features R)^T) 1 (ex_targets R) = Some (ex_hidden (R := R) 3%:R^-1, (1 * 3%:R^-1)%:M) /\
  lssvm_loss (ex_features R) 2%:R (ex_targets R) 0 0 = 1.
Proof.
  split; first by rewrite expr1n. split.
  - apply: ex_dual; first exact: ltr01. by rewrite -(natrD R 1 1) -(natrD R 2 1) mulVf // pnatr_eq0.
  - have -> : (0 : 'M[R]_(1, 1)) = (0 : R)%:M by rewrite raddf0.
    by rewrite ex_loss !expr0n /= mulr0 !add0r sqrrN expr1n.
Qed.

(** * C121 *)

(** One training point and kappa different from 1: the residual is not gamma times the dual
    variables. *)
Theorem C121_kappa_refuted :
  forall (R : rcfType) (K gamma kappa y : R),
    0 <= K -> 0 < gamma -> 0 <= kappa -> kappa != 1 -> y != 0 ->
    exists h b, solve_dual (n := 1) K%:M gamma (y%:M : 'M_1) = Some (h, b) /\ y%:M - predict_dual kappa h b (K%:M : 'M_1) != gamma *: h.
Proof. exact @kappa_spoils. Qed.
Print Assumptions C121_kappa_refuted.

(** The residual in general. *)
Theorem C121_residual_value :
  forall (R : rcfType) n q (K : 'M[R]_n) (gamma kappa : R) (Y h : 'M[R]_(n, q)) (b : 'rV[R]_q),
    psd K -> 0 < gamma -> (0 < n)%N -> solve_dual K gamma Y = Some (h, b) ->
    Y - predict_dual kappa h b K = gamma *: h + (1 - Num.sqrt kappa) *: rows_all n b.
Proof. exact @kappa_residual. Qed.
Print Assumptions C121_residual_value.

(** Kappa 1 is the default. *)
Theorem C121_default_partial :
  forall (R : rcfType) n q (K : 'M[R]_n) (gamma : R) (Y h : 'M[R]_(n, q)) (b : 'rV[R]_q),
    psd K -> 0 < gamma -> (0 < n)%N -> solve_dual K gamma Y = Some (h, b) ->
    Y - predict_dual 1 h b K = gamma *: h.
Proof. exact @residual_one. Qed.
Print Assumptions C121_default_partial.

Example C121_nontrivial (R : rcfType) :
  (0 : R) <= 3%:R /\ (0 : R) < 1 /\ (0 : R) <= 4%:R /\ (4%:R : R) != 1 /\ (2%:R : R) != 0.
Proof. by rewrite !ler0n ltr01 pnatr_eq0 (eqr_nat R 4 1). Qed.
