(** C225: what sequences of gradient steps amount to. *)
From mathcomp Require Import all_ssreflect all_algebra.
From Verif Require Import Stiefel MomentumSpec MomentumProofs.
Set Implicit Arguments. Unset Strict Implicit. Unset Printing Implicit Defensive.
Import GRing.Theory Num.Theory.
Local Open Scope ring_scope.

(** Without momentum, a parameter that is not on the manifold moves by the learning rate times
    the sum of the gradients, against it, and no buffer is created or changed. *)
Theorem C225_descent : forall (R : rcfType) (m n : nat) (o : sgd_options R) (p : 'M[R]_(m, n)) b gs,
  o_weight_decay o = 0 -> o_momentum o = 0 -> plain_steps o (p, b) gs = (p - o_lr o *: \sum_(g <- gs) g, b).
Proof. exact: plain_descent. Qed.
Print Assumptions C225_descent.
(** With momentum, it moves by the velocities, or for the variant of Nesterov by the gradients and
    the velocities that follow them; the buffer holds the last velocity. *)
Theorem C225_momentum : forall (R : rcfType) (m n : nat) (o : sgd_options R) (p : 'M[R]_(m, n)) gs,
  o_weight_decay o = 0 -> o_momentum o != 0 -> o_dampening o = 0 ->
  plain_steps o (p, None) gs =
    (p - o_lr o *: \sum_(k < size gs) (if o_nesterov o then gs`_k + o_momentum o *: velocity (o_momentum o) gs k.+1
                                       else velocity (o_momentum o) gs k.+1),
     if gs is [::] then None else Some (velocity (o_momentum o) gs (size gs))).
Proof. exact: plain_momentum. Qed.
Print Assumptions C225_momentum.
(** The second optimiser keeps on the manifold the weighted mean of the squared norms of the
    gradients, and the powers of its two weights by which it is corrected. *)
Theorem C225_second_moment : forall (R : rcfType) (m n : nat) (o : adam_options R) qr (p : 'M[R]_(m, n)) gs,
  exists q os, adam_steps o qr p gs = (q, os) /\
    let s := odflt (adam_init m n o) os in
    [/\ a_v s = mean_square (a_beta2 o) gs, a_power1 s = a_beta1 o ^+ (size gs).+1 & a_power2 s = a_beta2 o ^+ (size gs).+1].
Proof. exact: adam_moments. Qed.
Print Assumptions C225_second_moment.
(** The correction is exact: if all gradients have the same norm, the corrected mean at the last
    step is its square. *)
Theorem C225_corrected : forall (R : rcfType) (m n : nat) (beta c : R) (gs : seq ('M[R]_(m, n) * bool)),
  (forall g, g \in gs -> \sum_i \sum_j g.1 i j ^+ 2 = c) -> beta ^+ size gs != 1 ->
  mean_square beta gs / (1 - beta ^+ size gs) = c.
Proof.
  move=> R m n beta c gs H B; rewrite (mean_square_constant _ H) mulrAC mulfV ?mul1r //.
  by rewrite subr_eq0 eq_sym.
Qed.
Print Assumptions C225_corrected.

(** Two gradients of one with momentum 2 and rate 1: the velocities are 1 and 3. *)
Example C225_nontrivial (R : rcfType) :
  let o := SgdOptions 1 2%:R 0 0 false : sgd_options R in
  [/\ o_weight_decay o = 0, o_momentum o != 0, o_dampening o = 0 &
      plain_steps o (0, None) [:: 1%:M; 1%:M : 'M[R]_1] = (- 4%:R%:M, Some 3%:R%:M)] /\
  mean_square (2%:R^-1) [:: (1%:M : 'M[R]_1, true); (1%:M, false)] = 3%:R / 4%:R.
Proof.
  move=> o; have N : o_momentum o != 0 by rewrite pnatr_eq0.
  split; first (split=> //; rewrite plain_momentum //=).
  - rewrite /velocity !big_ord_recr !big_ord0 /= !add0r ?subnn ?expr0 ?expr1 ?scale1r -[2%:R *: 1%:M]/(2%:R *: 1%:M) !scale_scalar_mx ?mulr1 -!raddfD /=.
    by congr (- _%:M, Some _%:M); rewrite -?natrD -?(natrD _ 2 1) -?(natrD _ 1 3) ?(natrD _ 1 (2 + 1)).
  - rewrite (@mean_square_constant _ _ _ _ 1) => [|g]; last first.
      by rewrite !inE => /orP [] /eqP ->; rewrite /frobenius2 !big_ord1 mxE eqxx expr1n.
    rewrite mulr1 /= exprVn -natrX.
    have F : 4%:R != 0 :> R by rewrite pnatr_eq0.
    by apply: (mulIf F); rewrite mulfVK // mulrBl mulVf // mul1r -[X in _ - X]/(1%:R) -natrB.
Qed.
