(** The iterative method of the pre-images (C199). *)
From mathcomp Require Import all_ssreflect all_algebra.
From Verif Require Import LssvmM IterativeM IterativeSpec IterativeProofs IterativeExamples.
Set Implicit Arguments. Unset Strict Implicit. Unset Printing Implicit Defensive.
Import GRing.Theory Num.Theory Order.POrderTheory Order.TotalTheory.
Local Open Scope ring_scope.

(** * C199 *)

(** Whatever the objective, its gradient and the start: a negative rate is refused.  Otherwise there
    are at most [n] steps; the rate [lr] is only reduced, by factors of 0.8, not during the first
    52 steps and then at most once every 101 steps; and there are fewer than [n] steps only when the rate
    fell below [1e-5].  A rate below [1e-5] gives exactly one step. *)
Theorem C199_rates :
  forall (R : rcfType) (m d : nat) (obj : 'M[R]_(m, d) -> R) (grad : 'M[R]_(m, d) -> 'M[R]_(m, d)) (x0 : 'M[R]_(m, d)) (n : nat) (lr : R),
    (iterative obj grad x0 n lr = None <-> lr < 0) /\
    forall x u, iterative obj grad x0 n lr = Some (x, u) ->
      (10%:R ^- 5 <= lr ->
        (size u <= n)%N /\
        (forall i, (i < size u)%N -> exists r, (101 * r <= i + 49)%N /\ nth 0 u i = lr * (4%:R / 5%:R) ^+ r) /\
        ((size u < n)%N -> exists r, (101 * r <= size u + 49)%N /\ lr * (4%:R / 5%:R) ^+ r < 10%:R ^- 5)) /\
      (lr < 10%:R ^- 5 -> (0 < n)%N -> u = [:: lr] /\ x = x0 - lr *: grad x0).
Proof.
move=> R m d obj grad x0 n lr. rewrite /iterative. split; first by case: ifP.
case: ifP => // _ x u [E]. split.
  move=> L. have := rates obj grad n x0 L. by rewrite E => -[].
move=> L. case: n E => // n. rewrite tiny // => -[<- <-]. by [].
Qed.
Print Assumptions C199_rates.

(** In particular the default 50 iterations all happen with the rate that was given, and with the
    default rate the number of iterations is the one asked up to 2072, which is what is done at most
    when the objective does not change. *)
Theorem C199_steps :
  forall (R : rcfType) (m d : nat) (obj : 'M[R]_(m, d) -> R) (grad : 'M[R]_(m, d) -> 'M[R]_(m, d)) (x0 : 'M[R]_(m, d)) (n : nat),
    (forall lr x u, 10%:R ^- 5 <= lr -> (n <= 52)%N -> iterative obj grad x0 n lr = Some (x, u) -> u = nseq n lr) /\
    (forall x u, iterative obj grad x0 n (10%:R ^- 3) = Some (x, u) ->
       ((n <= 2072)%N -> size u = n) /\
       (forall c, 0 <= c -> (forall y, obj y = c) -> size u = minn n 2072)).
Proof.
move=> R m d obj grad x0 n. split.
  move=> lr x u L Hn. rewrite /iterative. case: ifP => // _ [E]. have := short obj grad x0 L Hn. by rewrite E.
move=> x u. rewrite /iterative. case: ifP => // _ [E]. split.
  move=> Hn. have := default_steps obj grad x0 Hn. by rewrite E.
move=> c Hc Ho. have := constant_steps grad n x0 Hc Ho. by rewrite E.
Qed.
Print Assumptions C199_steps.

(** The answer is never worse than the start, for an objective of curvature at most [L] and a rate of
    at most [2 / L]; when the objective is moreover convex and the rate at most [1 / L], the answer is
    not farther than the start from any point that is as good as it, and its value exceeds that
    of any point [z] by at most the squared distance of the start to [z] over twice the sum of the
    rates.  A start where the gradient is zero is returned unchanged. *)
Theorem C199_descent :
  forall (R : rcfType) (m d : nat) (obj : 'M[R]_(m, d) -> R) (grad : 'M[R]_(m, d) -> 'M[R]_(m, d)) (x0 : 'M[R]_(m, d))
    (n : nat) (lr L : R) x u, iterative obj grad x0 n lr = Some (x, u) ->
    (smooth L obj grad -> lr * L <= 2%:R -> obj x <= obj x0) /\
    (smooth L obj grad -> convex obj grad -> lr * L <= 1 ->
       forall z, 2%:R * (\sum_(y <- u) y) * (obj x - obj z) <= dist2 x0 z /\
                 (obj z <= obj x -> dist2 x z <= dist2 x0 z)) /\
    (grad x0 = 0 -> x = x0).
Proof.
move=> R m d obj grad x0 n lr L x u. rewrite /iterative. case: ifP => // /negbT. rewrite -leNgt => L0 [E]. split; [|split].
- move=> S HL. have := never_worse n x0 S L0 HL. by rewrite E.
- move=> S C HL z. have Z := converges n x0 z S C L0 HL. rewrite /= E /= in Z. split.
    apply: (le_trans Z). by rewrite ler_subl_addr ler_addl dist2_ge0.
  move=> Hz. rewrite -subr_ge0. apply: le_trans Z. rewrite mulr_ge0 ?subr_ge0 // mulr_ge0 ?ler0n // big_seq sumr_ge0 // => y Hy.
  have : y \in (run obj grad n (start_schedule lr) x0).2 by rewrite E. by move=> /(run_le L0) /andP [].
- move=> G. have := run_still obj n (start_schedule lr) G. by rewrite E.
Qed.
Print Assumptions C199_descent.

(** Pre-images for the linear kernel: the objective is convex, with the given gradient, its curvature
    is at most twice the sum of the squares of the sample over the number of kernel values, and a start with
    the right image is returned unchanged. *)
Theorem C199_linear :
  forall (R : rcfType) (n m d : nat) (S : 'M[R]_(n, d)) (K : 'M[R]_(m, n)),
    (forall x, linear_obj S K x = (m * n)%:R^-1 * dist2 (x *m S^T) K) /\
    convex (linear_obj S K) (linear_grad S K) /\
    smooth (2%:R * (m * n)%:R^-1 * \sum_i \sum_j S i j ^+ 2) (linear_obj S K) (linear_grad S K) /\
    (forall num lr x0 x u, x0 *m S^T = K -> iterative (linear_obj S K) (linear_grad S K) x0 num lr = Some (x, u) -> x = x0).
Proof.
move=> R n m d S K. split=> //. split; first exact: linear_convex. split; first exact: linear_smooth.
move=> num lr x0 x u E. rewrite /iterative. case: ifP => // _ [Er]. have Z := run_still (linear_obj S K) num (start_schedule lr) (linear_still E). by rewrite Er in Z.
Qed.
Print Assumptions C199_linear.

(** With one point in one dimension the bound on the rate is sharp: above [2 / L] the answer is worse
    than the start, whatever the start, unless the start is exact.  The default rate is above it
    for the sample [40]. *)
Theorem C199_too_fast :
  forall (R : rcfType) (s k : R) (lr : R) (n : nat) (x0 x : 'M[R]_1) u, let L := 2%:R * s ^+ 2 in
    10%:R ^- 5 <= lr -> (0 < n <= 52)%N -> 2%:R < lr * L -> linear_obj (s%:M : 'M[R]_1) (k%:M : 'M[R]_1) x0 != 0 ->
    iterative (linear_obj (s%:M : 'M[R]_1) (k%:M : 'M[R]_1)) (linear_grad (s%:M : 'M[R]_1) (k%:M : 'M[R]_1)) x0 n lr = Some (x, u) ->
    linear_obj (s%:M : 'M[R]_1) (k%:M : 'M[R]_1) x0 < linear_obj (s%:M : 'M[R]_1) (k%:M : 'M[R]_1) x.
Proof.
move=> R s k lr n x0 x u L Hl Hn HL Hx. rewrite /iterative. case: ifP => // _ [E].
have HL' : 2%:R < lr * curvature 1 (s%:M : 'M[R]_1) by rewrite one_curvature.
have Z := one_diverges Hl Hn HL' Hx. by rewrite E in Z.
Qed.
Print Assumptions C199_too_fast.

Example C199_nontrivial (R : rcfType) :
  (10%:R ^- 3 : R) * (2%:R * (1 * 1)%:R^-1 * \sum_i \sum_j (1%:M : 'M[R]_1) i j ^+ 2) <= 1 /\
  2%:R < (10%:R ^- 3 : R) * (2%:R * (40%:R) ^+ 2) /\
  linear_obj ((40%:R)%:M : 'M[R]_1) ((80%:R)%:M : 'M[R]_1) (40%:R)%:M != 0 /\ (10%:R ^- 5 : R) <= 10%:R ^- 3.
Proof.
split; first exact: small_sample. split; first by rewrite -one_curvature; exact: large_sample.
split; [exact: large_error | exact: lr0_ge].
Qed.
