(** C221: iterative pre-images of several points. *)
From Verif Require Import Base.
From mathcomp Require Import all_ssreflect all_algebra.
From Verif Require Import LssvmM IterativeM IterativeSpec IterativeProofs BatchStepProofs BatchStepExamples.
Set Implicit Arguments. Unset Strict Implicit. Unset Printing Implicit Defensive.
Import GRing.Theory Num.Theory.
Local Open Scope ring_scope.

(** One step towards pre-images for the linear kernel: a point of the batch gets the answer it would get
    alone exactly when it is alone, the rate is zero, or it does not move.  The last part is such a
    batch: the sample 1, twice the image 1 and the start 0, with the default rate. *)
Theorem C221_batch_refuted :
  (forall (R : rcfType) (n m d : nat) (S : 'M[R]_(n, d)) (K : 'M[R]_(m, n)) (i : 'I_m) (lr : R)
     (x0 x : 'M[R]_(m, d)) (y : 'rV[R]_d) (u v : seq R),
     iterative (linear_obj S K) (linear_grad S K) x0 1 lr = Some (x, u) ->
     iterative (linear_obj S (row i K)) (linear_grad S (row i K)) (row i x0) 1 lr = Some (y, v) ->
     (row i x = y) <-> [\/ m = 1%N, lr = 0 | linear_grad S (row i K) (row i x0) = 0]) /\
  (forall R : rcfType, let S : 'M[R]_1 := 1 in let K : 'M[R]_(2, 1) := const_mx 1 in
     exists x u y v, iterative (linear_obj S K) (linear_grad S K) 0 1 (10%:R ^- 3) = Some (x, u) /\
       iterative (linear_obj S (row ord0 K)) (linear_grad S (row ord0 K)) (row ord0 (0 : 'M[R]_(2, 1))) 1 (10%:R ^- 3) = Some (y, v) /\
       row ord0 x <> y).
Proof. by split; [move=> *; apply: one_step_iff; eassumption | exact: two_points_differ]. Qed.
Print Assumptions C221_batch_refuted.

(** What holds, for every objective that is the mean over the [m] points of an objective of each of them
    ([row i (grad y) = m^-1 *: g (row i y)], with [g] the gradient for the point [i]), and for as many
    steps as the schedule leaves the rate alone: each point makes the steps of gradient descent with the
    rate divided by [m]. *)
Theorem C221_steps_partial :
  forall (R : rcfType) (m d : nat) (obj : 'M[R]_(m, d) -> R) (grad : 'M[R]_(m, d) -> 'M[R]_(m, d))
    (g : 'rV[R]_d -> 'rV[R]_d) (i : 'I_m) (n : nat) (lr : R) (x0 x : 'M[R]_(m, d)) (u : seq R),
    (forall y, row i (grad y) = m%:R^-1 *: g (row i y)) -> (n <= 52)%N -> 10%:R ^- 5 <= lr ->
    iterative obj grad x0 n lr = Some (x, u) ->
    row i x = iter n (fun y => y - (lr / m%:R) *: g y) (row i x0).
Proof. exact shared_steps. Qed.
Print Assumptions C221_steps_partial.

(** If the rate divided by [m] is not below the smallest one, this is the answer for the point alone with
    that rate. *)
Theorem C221_alone_partial :
  forall (R : rcfType) (m d : nat) (obj : 'M[R]_(m, d) -> R) (grad : 'M[R]_(m, d) -> 'M[R]_(m, d))
    (obj1 : 'rV[R]_d -> R) (g : 'rV[R]_d -> 'rV[R]_d) (i : 'I_m) (n : nat) (lr : R) (x0 x : 'M[R]_(m, d)) (u : seq R),
    (forall y, row i (grad y) = m%:R^-1 *: g (row i y)) -> (n <= 52)%N -> 10%:R ^- 5 <= lr / m%:R ->
    iterative obj grad x0 n lr = Some (x, u) ->
    exists u', iterative obj1 g (row i x0) n (lr / m%:R) = Some (row i x, u').
Proof. exact shared_rate. Qed.
Print Assumptions C221_alone_partial.

(** The pre-images for the linear kernel are of that kind. *)
Theorem C221_linear_partial :
  forall (R : rcfType) (n m d : nat) (S : 'M[R]_(n, d)) (K : 'M[R]_(m, n)) (i : 'I_m) (num : nat) (lr : R)
    (x0 x : 'M[R]_(m, d)) (u : seq R), (num <= 52)%N -> 10%:R ^- 5 <= lr / m%:R ->
    iterative (linear_obj S K) (linear_grad S K) x0 num lr = Some (x, u) ->
    exists u', iterative (linear_obj S (row i K)) (linear_grad S (row i K)) (row i x0) num (lr / m%:R) = Some (row i x, u').
Proof. by move=> R n m d S K i num lr x0 x u N L; apply: shared_rate => // y; exact: linear_rows. Qed.
Print Assumptions C221_linear_partial.

(** The default rate and number of iterations, for two points. *)
Example C221_nontrivial (R : rcfType) :
  10%:R ^- 5 <= (10%:R ^- 3 / 2%:R : R) /\ (50 <= 52)%N /\
  linear_grad (1 : 'M[R]_1) (row ord0 (const_mx 1 : 'M[R]_(2, 1))) (row ord0 (0 : 'M[R]_(2, 1))) != 0.
Proof. by split; [exact: two_points_rate | split; [|exact: two_points_move]]. Qed.
