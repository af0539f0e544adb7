(** Steps of the optimisers on the Stiefel manifold. *)
From mathcomp Require Import all_ssreflect all_algebra.
From Verif Require Import Stiefel StiefelSpec StiefelProofs StiefelHistory StiefelExamples.
Set Implicit Arguments. Unset Strict Implicit. Unset Printing Implicit Defensive.
Import GRing.Theory Num.Theory.
Local Open Scope ring_scope.

(** *** C76 *)

(** Along a skew direction there is exactly one Cayley update, and it has the same inner products
    between the rows of the parameter. *)
Theorem C76_exact : forall (R : rcfType) (m n : nat) (x : 'M[R]_(n, m)) (w : 'M[R]_n) (t : R), skew w ->
  (exists y, cayley_update x w t y /\ forall y', cayley_update x w t y' -> y' = y) /\
  forall y, cayley_update x w t y -> y^T *m y = x^T *m x.
Proof. by move=> R m n x w t S; split; [exact: update_exists | move=> y; exact: update_gram]. Qed.
Print Assumptions C76_exact.
(** A step of the first optimiser, from the parameter with normalised rows: the direction is skew,
    the step size is between zero and the learning rate, and the new parameter is within [2^-20] of
    the exact update, relatively to the distance from the first guess. *)
Theorem C76_sgd : forall (R : rcfType) (m n : nat) (o : sgd_options R) qr retract (p : 'M[R]_(m, n)) buffer g, 0 <= o_lr o ->
  let x := start qr retract p in
  let v := o_momentum o *: odflt 0 buffer - g^T in
  let w := direction v x in
  let t := step_size w (o_lr o) in
  exists y, [/\ skew w, 0 <= t <= o_lr o, cayley_update x^T w t y, gram y^T = gram x &
    norm_one ((sgd_stiefel o qr retract (p, buffer) g).1^T - y) <= 2%:R^-1 ^+ 20 * norm_one (x^T + t *: v - y)].
Proof. exact: sgd_close. Qed.
Print Assumptions C76_sgd.
(** The same for the second one. *)
Theorem C76_adam : forall (R : rcfType) (m n : nat) (o : adam_options R) qr retract (p : 'M[R]_(m, n)) os g, 0 <= a_lr o ->
  let x := start qr retract p in
  let s := odflt (adam_init m n o) os in
  let w := adam_direction o x s g in
  let t := step_size w (a_lr o) in
  exists y, [/\ skew w, 0 <= t <= a_lr o, cayley_update x^T w (- t) y, gram y^T = gram x &
    norm_one ((adam_stiefel o qr retract (p, os) g).1^T - y)
      <= 2%:R^-1 ^+ 20 * norm_one (x^T - t *: adam_first o s g - y)].
Proof. exact: adam_close. Qed.
Print Assumptions C76_adam.
(** Any history of exact updates, with the normalisation and the re-orthonormalisation of the code
    before each of them, keeps the rows orthogonal and their norms between [1 - 1e-8] and 1. *)
Theorem C76_history : forall (R : rcfType) (m n : nat) (qr : 'M[R]_(n, m) -> 'M[R]_(n, m) * 'M[R]_m), qr_correct qr ->
  forall p0 p : 'M[R]_(m, n), nearly_orthonormal p0 -> exact_history qr p0 p -> nearly_orthonormal p.
Proof. by move=> R m n qr C p0 p; exact: exact_near. Qed.
Print Assumptions C76_history.
Example C76_nontrivial (R : rcfType) :
  skew (direction (ex_move R) (ex_row R)) /\ direction (ex_move R) (ex_row R) 1 0 = 1 /\
  qr_correct (@ex_qr R 1) /\ nearly_orthonormal (ex_row R).
Proof.
  split; first exact: direction_skew. split; first exact: ex_direction. split; first exact: ex_qr_correct.
  apply: orthonormal_near; exact: ex_row_orthonormal.
Qed.

(** *** C77 *)

(** Refuted: the momentum factor has no effect at all on the first optimiser. *)
Theorem C77_momentum_refuted : forall (R : rcfType) (m n : nat) (qr : 'M[R]_(n, m) -> 'M[R]_(n, m) * 'M[R]_m)
  (o o' : sgd_options R) (p : 'M[R]_(m, n)) gs, same_rate o o' ->
  (run_sgd qr o (p, None) gs).1 = (run_sgd qr o' (p, None) gs).1.
Proof. by move=> R m n qr o o' p gs L; apply: run_parameter. Qed.
Print Assumptions C77_momentum_refuted.
(** Each step is the one of an optimiser that has just been created: nothing but the value of the
    parameter is kept from the steps before. *)
Theorem C77_forgetful_refuted : forall (R : rcfType) (m n : nat) (qr : 'M[R]_(n, m) -> 'M[R]_(n, m) * 'M[R]_m)
  (o : sgd_options R) (p : 'M[R]_(m, n)) gs rg,
  (run_sgd qr o (p, None) (rcons gs rg)).1 = (sgd_stiefel o qr rg.1 ((run_sgd qr o (p, None) gs).1, None) rg.2).1.
Proof. by move=> R m n qr o p gs rg; apply: run_last. Qed.
Print Assumptions C77_forgetful_refuted.
(** The second optimiser does keep the average of the gradients, projected as the direction was;
    missing: that a different average gives a different parameter. *)
Theorem C77_adam_partial : forall (R : rcfType) (m n : nat) (qr : 'M[R]_(n, m) -> 'M[R]_(n, m) * 'M[R]_m)
  (o : adam_options R) retract (p : 'M[R]_(m, n)) os g,
  let s := odflt (adam_init m n o) os in
  let x := start qr retract p in
  adam_scale o s g != 0 -> a_power1 s != 1 ->
  exists s', (adam_stiefel o qr retract (p, os) g).2 = Some s' /\
    a_m s' = direction (a_beta1 o *: a_m s + (1 - a_beta1 o) *: g^T) x *m x^T /\
    a_power1 s' = a_power1 s * a_beta1 o /\
    forall g', adam_first o s' g' = a_beta1 o *: a_m s' + (1 - a_beta1 o) *: g'^T.
Proof. exact: adam_moment. Qed.
Print Assumptions C77_adam_partial.
Example C77_nontrivial (R : rcfType) :
  same_rate (SgdOptions 1 0 0 0 false) (SgdOptions 1 (9%:R : R) 0 0 false) /\
  let o := AdamOptions 1 (2%:R^-1) (2%:R^-1) (1 : R) in
  let s := odflt (adam_init 1 2 o) None in
  adam_scale o s 0 != 0 /\ a_power1 s != 1.
Proof.
  split=> //=. split.
  - rewrite /adam_scale /adam_second /frobenius2 /= big1 => [|i _]; last by apply: big1 => j _; rewrite mxE expr0n.
    by rewrite !mulr0 addr0 mul0r add0r sqrtr1 oner_neq0.
  - by rewrite -subr_eq0 -{2}(mulfV (two_neq0 R)) -{1}(mul1r (2%:R^-1)) -mulrBl mulf_neq0 ?invr_neq0 ?two_neq0 // -opprB oppr_eq0 -addn1 natrD addrK oner_neq0.
Qed.

(** *** C136 *)

(** Re-orthonormalisation gives orthonormal rows when the triangular factor has no zero on its
    diagonal (independent rows). *)
Theorem C136_orthonormal_partial : forall (R : rcfType) (m n : nat) (qr : 'M[R]_(n, m) -> 'M[R]_(n, m) * 'M[R]_m), qr_correct qr ->
  forall x : 'M[R]_(m, n), (forall i, (qr x^T).2 i i != 0) -> orthonormal_rows (qr_retraction qr x).
Proof. by move=> R m n qr C x; exact: retract_orthonormal. Qed.
Print Assumptions C136_orthonormal_partial.
(** It does not move orthonormal rows. *)
Theorem C136_fixed : forall (R : rcfType) (m n : nat) (qr : 'M[R]_(n, m) -> 'M[R]_(n, m) * 'M[R]_m), qr_correct qr ->
  forall x : 'M[R]_(m, n), orthonormal_rows x -> qr_retraction qr x = x.
Proof. by move=> R m n qr C x; exact: retract_fixed. Qed.
Print Assumptions C136_fixed.
(** Refuted otherwise: where the diagonal is zero the whole row of the result is zero. *)
Theorem C136_dependent_refuted : forall (R : rcfType) (m n : nat) (qr : 'M[R]_(n, m) -> 'M[R]_(n, m) * 'M[R]_m), qr_correct qr ->
  forall (x : 'M[R]_(m, n)) i, (qr x^T).2 i i = 0 -> gram (qr_retraction qr x) i i = 0.
Proof. by move=> R m n qr C x i H; apply: (retract_zero C). Qed.
Print Assumptions C136_dependent_refuted.
Example C136_nontrivial (R : rcfType) : qr_correct (@ex_qr R 1) /\
  (forall i, (ex_qr (ex_row R)^T).2 i i != 0) /\ orthonormal_rows (ex_row R) /\
  (ex_qr (0 : 'M[R]_(1, 2))^T).2 0 0 = 0.
Proof.
  split; first exact: ex_qr_correct. split; first exact: ex_qr_diagonal.
  split; [exact: ex_row_orthonormal | exact: ex_qr_zero].
Qed.

(** *** C137 *)

(** Where the rows are orthogonal with the same norm (at most [sqrt 2]), the velocity of the update
    makes an acute angle with the direction given to it: along minus the gradient, the loss does
    not increase at first order. *)
Theorem C137_descent : forall (R : rcfType) (m n : nat) (x : 'M[R]_(m, n)) (c : R), gram x = c%:M -> c != 0 -> 0 <= c <= 2%:R ->
  forall v, 0 <= \tr (v^T *m (direction v x *m x^T)).
Proof. by move=> R m n x c G C0 C1 v; apply: (descent G C0 C1). Qed.
Print Assumptions C137_descent.
(** No decrease at first order only where the velocity vanishes. *)
Theorem C137_stationary : forall (R : rcfType) (m n : nat) (x : 'M[R]_(m, n)) (c : R), gram x = c%:M -> c != 0 -> 0 <= c <= 2%:R ->
  forall v, c < 2%:R -> \tr (v^T *m (direction v x *m x^T)) = 0 -> direction v x *m x^T = 0.
Proof. by move=> R m n x c G C0 C1 v L H; apply: (descent_stationary G C0 C1 L H). Qed.
Print Assumptions C137_stationary.
Example C137_nontrivial (R : rcfType) : gram (ex_row R) = 1%:M /\ (1 : R) != 0 /\ 0 <= (1 : R) <= 2%:R /\ (1 : R) < 2%:R /\
  \tr ((ex_move R)^T *m (direction (ex_move R) (ex_row R) *m (ex_row R)^T)) = 1.
Proof.
  split; first exact: ex_row_orthonormal. split; first exact: oner_neq0.
  split; first by rewrite ler01 ler1n. split; first by rewrite ltr1n. exact: ex_descent.
Qed.
