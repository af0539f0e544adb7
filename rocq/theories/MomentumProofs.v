(** Sequences of plain gradient steps: proofs. *)
From mathcomp Require Import all_ssreflect all_algebra.
From Verif Require Import Stiefel MomentumSpec.
Set Implicit Arguments. Unset Strict Implicit. Unset Printing Implicit Defensive.
Import GRing.Theory Num.Theory.
Local Open Scope ring_scope.

Section Momentum.
  Variable R : rcfType.
  Variables m n : nat.
  Implicit Types (o : sgd_options R) (gs : seq 'M[R]_(m, n)).

  Lemma plain_descent o p b gs : o_weight_decay o = 0 -> o_momentum o = 0 ->
    plain_steps o (p, b) gs = (p - o_lr o *: \sum_(g <- gs) g, b).
  Proof.
    move=> D M; rewrite /plain_steps; elim: gs p => [|g gs IH] p; first by rewrite big_nil scaler0 subr0.
    by rewrite /= D M eqxx /= IH big_cons scalerDr opprD addrA.
  Qed.
  Lemma velocityS mu gs g : velocity mu (rcons gs g) (size gs).+1 = mu *: velocity mu gs (size gs) + g.
  Proof.
    rewrite /velocity big_ord_recr /= nth_rcons ltnn eqxx subnn expr0 scale1r; congr (_ + _).
    rewrite scaler_sumr; apply: eq_bigr => i _; rewrite nth_rcons ltn_ord scalerA -exprS.
    by rewrite subSn.
  Qed.
  Lemma velocity_rcons mu gs g k : (k <= size gs)%N -> velocity mu (rcons gs g) k = velocity mu gs k.
  Proof. by move=> K; apply: eq_bigr => i _; rewrite nth_rcons (leq_trans (ltn_ord i) K). Qed.
  Lemma plain_momentum o p gs : o_weight_decay o = 0 -> o_momentum o != 0 -> o_dampening o = 0 ->
    plain_steps o (p, None) gs =
      (p - o_lr o *: \sum_(k < size gs) (if o_nesterov o then gs`_k + o_momentum o *: velocity (o_momentum o) gs k.+1
                                         else velocity (o_momentum o) gs k.+1),
       if gs is [::] then None else Some (velocity (o_momentum o) gs (size gs))).
  Proof.
    move=> D M E; elim/last_ind: gs => [|gs g IH]; first by rewrite big_ord0 scaler0 subr0.
    rewrite /plain_steps foldl_rcons -/(plain_steps _ _ gs) IH size_rcons big_ord_recr /= nth_rcons ltnn eqxx velocityS.
    have -> : \sum_(k < size gs) (if o_nesterov o then (rcons gs g)`_k + o_momentum o *: velocity (o_momentum o) (rcons gs g) k.+1
        else velocity (o_momentum o) (rcons gs g) k.+1) =
      \sum_(k < size gs) (if o_nesterov o then gs`_k + o_momentum o *: velocity (o_momentum o) gs k.+1
        else velocity (o_momentum o) gs k.+1).
      by apply: eq_bigr => k _; rewrite nth_rcons ltn_ord !velocity_rcons.
    rewrite D M E eqxx /= subr0 scale1r scalerDr opprD addrA.
    case: gs {IH} => [|g0 gs] /=; last by [].
    by rewrite /velocity big_ord0 scaler0 add0r.
  Qed.

  Lemma mean_square_rcons (beta : R) (gs : seq ('M[R]_(m, n) * bool)) g :
    mean_square beta (rcons gs g) = beta * mean_square beta gs + (1 - beta) * frobenius2 g.1.
  Proof.
    rewrite /mean_square size_rcons big_ord_recr /= map_rcons nth_rcons size_map ltnn eqxx subnn expr0 mul1r mulrDr.
    congr (_ + _); rewrite mulrCA; congr (_ * _); rewrite mulr_sumr; apply: eq_bigr => i _.
    by rewrite nth_rcons size_map ltn_ord mulrA -exprS subSn.
  Qed.
  Lemma adam_moments (o : adam_options R) qr (p : 'M[R]_(m, n)) (gs : seq ('M[R]_(m, n) * bool)) :
    exists q os, adam_steps o qr p gs = (q, os) /\
      let s := odflt (adam_init m n o) os in
      [/\ a_v s = mean_square (a_beta2 o) gs, a_power1 s = a_beta1 o ^+ (size gs).+1 & a_power2 s = a_beta2 o ^+ (size gs).+1].
  Proof.
    elim/last_ind: gs => [|gs g [q [os [E [V P1 P2]]]]].
      by exists p, None; split=> //; split=> //=; rewrite /mean_square big_ord0 mulr0.
    rewrite /adam_steps foldl_rcons -/(adam_steps o qr p gs) E.
    eexists; eexists; split; first by [].
    by rewrite /= mean_square_rcons -V P1 P2 size_rcons -!exprSr.
  Qed.
  Lemma mean_square_constant (beta c : R) (gs : seq ('M[R]_(m, n) * bool)) :
    (forall g, g \in gs -> frobenius2 g.1 = c) -> mean_square beta gs = (1 - beta ^+ size gs) * c.
  Proof.
    elim/last_ind: gs => [|gs g IH] H; first by rewrite /mean_square big_ord0 mulr0 expr0 subrr mul0r.
    rewrite mean_square_rcons IH => [|h I]; last by apply: H; rewrite mem_rcons inE I orbT.
    rewrite H ?mem_rcons ?mem_head // size_rcons exprS mulrA -mulrDl; congr (_ * _).
    by rewrite mulrBr mulr1 addrC addrA subrK.
  Qed.
End Momentum.
