(** Property theorems C160, C161, C162: Nystrom features of other points; least-squares support
    vector machines and regularisation, targets and training order. *)
From mathcomp Require Import all_ssreflect all_fingroup all_algebra.
From Verif Require Import NystromM MatrixSpec NystromMProofs NystromOosProofs KpcaM KpcaSpec LssvmM LssvmSpec LssvmMProofs LssvmLossProofs LssvmMonoProofs.
Set Implicit Arguments. Unset Strict Implicit. Unset Printing Implicit Defensive.
Import GRing.Theory Num.Theory.
Local Open Scope ring_scope.

(** * C160 *)

(** [K] is the base kernel on the sample, [Kx] between other points and the sample, [Kxx] on the
    other points; together they are positive.  What the Nystrom kernel misses on the other
    points is positive as well. *)
Theorem C160_never_above :
  forall (R : rcfType) n (K : 'M[R]_n) (s : 'rV[R]_n) (V : 'M[R]_n), eigendecomposition K s V ->
  forall (eps : R) (k : nat) (Hk : (k <= n)%N) m (Kx : 'M[R]_(m, n)) (Kxx : 'M[R]_m), 0 < eps ->
    psd (block_mx K Kx^T Kx Kxx) ->
    psd (Kxx - nystrom_oos eps Hk s V Kx *m (nystrom_oos eps Hk s V Kx)^T).
Proof. exact oos_below. Qed.
Print Assumptions C160_never_above.

(** With more components or a lower threshold it misses less. *)
Theorem C160_more_components :
  forall (R : rcfType) n (s : 'rV[R]_n) (V : 'M[R]_n) (eps eps' : R) (k k' : nat) (Hk : (k <= n)%N) (Hk' : (k' <= n)%N)
         m (Kx : 'M[R]_(m, n)),
    0 < eps' -> eps' <= eps -> (k <= k')%N ->
    psd (nystrom_oos eps' Hk' s V Kx *m (nystrom_oos eps' Hk' s V Kx)^T -
         nystrom_oos eps Hk s V Kx *m (nystrom_oos eps Hk s V Kx)^T).
Proof. exact oos_monotone. Qed.
Print Assumptions C160_more_components.

Example C160_nontrivial (R : rcfType) :
  eigendecomposition (ex_one R) (const_mx 1) 1%:M /\ psd (block_mx (ex_one R) (ex_one R)^T (ex_one R) (ex_two R)) /\
  ex_two R - nystrom_oos (1 / 2%:R) (leqnn 1) (const_mx 1) 1%:M (ex_one R) *m
             (nystrom_oos (1 / 2%:R) (leqnn 1) (const_mx 1) 1%:M (ex_one R))^T = 1%:M.
Proof.
  split; first exact: ex_one_decomposition. split; first exact: ex_one_block.
  by rewrite ex_one_value /ex_two /ex_one -raddfB /= (natrD _ 1 1) addrK.
Qed.

(** * C161 *)

(** The squared error on the training points grows with the regularisation, for every output. *)
Theorem C161_training_error :
  forall (R : rcfType) n q (K : 'M[R]_n), psd K -> (0 < n)%N ->
  forall (Y : 'M[R]_(n, q)) (gamma1 gamma2 : R) (h1 h2 : 'M[R]_(n, q)) (b1 b2 : 'rV[R]_q),
    0 < gamma1 -> gamma1 <= gamma2 ->
    solve_dual K gamma1 Y = Some (h1, b1) -> solve_dual K gamma2 Y = Some (h2, b2) ->
    forall j, \sum_i (Y i j - predict_dual 1 h1 b1 K i j) ^+ 2 <= \sum_i (Y i j - predict_dual 1 h2 b2 K i j) ^+ 2.
Proof. exact error_monotone. Qed.
Print Assumptions C161_training_error.

(** The squared norm of the weights shrinks. *)
Theorem C161_norm :
  forall (R : rcfType) n q (K : 'M[R]_n), psd K -> (0 < n)%N ->
  forall (Y : 'M[R]_(n, q)) (gamma1 gamma2 : R) (h1 h2 : 'M[R]_(n, q)) (b1 b2 : 'rV[R]_q),
    K^T = K -> 0 < gamma1 -> gamma1 <= gamma2 ->
    solve_dual K gamma1 Y = Some (h1, b1) -> solve_dual K gamma2 Y = Some (h2, b2) ->
    forall j, qform K (col j h2) <= qform K (col j h1).
Proof. exact norm_monotone. Qed.
Print Assumptions C161_norm.

(** Whatever the regularisation, no constant is a better prediction on the training points. *)
Theorem C161_better_than_constants :
  forall (R : rcfType) n q (K : 'M[R]_n), psd K -> (0 < n)%N ->
  forall (Y : 'M[R]_(n, q)) (gamma : R) (h : 'M[R]_(n, q)) (b : 'rV[R]_q),
    0 < gamma -> solve_dual K gamma Y = Some (h, b) ->
    forall j (c : R), \sum_i (Y i j - predict_dual 1 h b K i j) ^+ 2 <= \sum_i (Y i j - c) ^+ 2.
Proof. exact beats_constants. Qed.
Print Assumptions C161_better_than_constants.

(** The predictions on the training points have the sum of the targets. *)
Theorem C161_sum :
  forall (R : rcfType) n q (K : 'M[R]_n), psd K -> (0 < n)%N ->
  forall (Y : 'M[R]_(n, q)) (gamma : R) (h : 'M[R]_(n, q)) (b : 'rV[R]_q),
    0 < gamma -> solve_dual K gamma Y = Some (h, b) ->
    forall j, \sum_i predict_dual 1 h b K i j = \sum_i Y i j.
Proof. exact mean_right. Qed.
Print Assumptions C161_sum.

Example C161_nontrivial (R : rcfType) :
  psd (ex_features R *m (ex_features R)^T) /\
  solve_dual (ex_features R *m (ex_features R)^T) 1 (ex_targets R) = Some (ex_hidden (R := R) 3%:R^-1, (1 * 3%:R^-1)%:M) /\
  solve_dual (ex_features R *m (ex_features R)^T) 2%:R (ex_targets R) = Some (ex_hidden (R := R) 5%:R^-1, (2%:R * 5%:R^-1)%:M).
Proof.
  split; first exact: outer_psd. split; apply: ex_dual; rewrite ?ltr01 ?ltr0n //.
  - by rewrite -(natrD R 1 1) -(natrD R 2 1) mulVf // pnatr_eq0.
  - by rewrite -(natrD R 1 2) -(natrD R 3 2) mulVf // pnatr_eq0.
Qed.

(** * C162 *)

(** Training is linear in the targets. *)
Theorem C162_linear :
  forall (R : rcfType) n q (K : 'M[R]_n) (gamma a : R) (Y Y' h h' : 'M[R]_(n, q)) (b b' : 'rV[R]_q),
    solve_dual K gamma Y = Some (h, b) -> solve_dual K gamma Y' = Some (h', b') ->
    solve_dual K gamma (a *: Y + Y') = Some (a *: h + h', a *: b + b').
Proof. exact solve_linear. Qed.
Print Assumptions C162_linear.

(** Another origin of the targets changes the bias only. *)
Theorem C162_shift :
  forall (R : rcfType) n q (K : 'M[R]_n) (gamma : R) (Y h : 'M[R]_(n, q)) (b c : 'rV[R]_q),
    solve_dual K gamma Y = Some (h, b) -> solve_dual K gamma (Y + rows_all n c) = Some (h, b + c).
Proof. exact solve_shift. Qed.
Print Assumptions C162_shift.

(** Reordering the training points reorders the dual variables and changes no prediction, on
    any points. *)
Theorem C162_order :
  forall (R : rcfType) n q (K : 'M[R]_n) (gamma : R) (p : {perm 'I_n}) (Y h : 'M[R]_(n, q)) (b : 'rV[R]_q),
    solve_dual K gamma Y = Some (h, b) ->
    solve_dual (row_perm p (col_perm p K)) gamma (row_perm p Y) = Some (row_perm p h, b) /\
    forall (kappa : R) m (k : 'M[R]_(m, n)), predict_dual kappa (row_perm p h) b (col_perm p k) = predict_dual kappa h b k.
Proof. move=> R n q K gamma p Y h b H. split; [exact: solve_reorder | move=> kappa m k; exact: predict_reorder]. Qed.
Print Assumptions C162_order.

(** A kernel multiplied by a factor, with the regularisation multiplied alike, makes the same
    predictions. *)
Theorem C162_scale :
  forall (R : rcfType) n q (K : 'M[R]_n) (gamma a : R) (Y h : 'M[R]_(n, q)) (b : 'rV[R]_q),
    a != 0 -> solve_dual K gamma Y = Some (h, b) ->
    solve_dual (a *: K) (a * gamma) Y = Some (a^-1 *: h, b) /\
    forall (kappa : R) m (k : 'M[R]_(m, n)), predict_dual kappa (a^-1 *: h) b (a *: k) = predict_dual kappa h b k.
Proof.
  move=> R n q K gamma a Y h b Na H. split; first exact: solve_scale.
  move=> kappa m k. by rewrite /predict_dual -scalemxAl -scalemxAr scalerA divff // scale1r.
Qed.
Print Assumptions C162_scale.

Example C162_nontrivial (R : rcfType) :
  solve_dual (ex_features R *m (ex_features R)^T) 1 (ex_targets R + rows_all 2 (7%:R)%:M) =
  Some (ex_hidden (R := R) 3%:R^-1, (1 * 3%:R^-1)%:M + (7%:R)%:M).
Proof.
  apply: solve_shift. apply: ex_dual; first exact: ltr01.
  by rewrite -(natrD R 1 1) -(natrD R 2 1) mulVf // pnatr_eq0.
Qed.
