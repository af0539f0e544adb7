(** Pre-images of several points found together: proofs. *)
From Verif Require Import Base.
From mathcomp Require Import all_ssreflect all_algebra.
From Verif Require Import LssvmM IterativeM IterativeSpec IterativeProofs.
Set Implicit Arguments. Unset Strict Implicit. Unset Printing Implicit Defensive.
Import GRing.Theory Num.Theory Order.POrderTheory Order.TotalTheory.
Local Open Scope ring_scope.

Section Shared.
  Variable R : rcfType.

  Lemma run_fold m d (obj : 'M[R]_(m, d) -> R) grad n : forall s x,
    (run obj grad n s x).1 = foldl (fun y r => y - r *: grad y) x (run obj grad n s x).2.
  Proof. by elim: n => [|n IH] s x //=; case: ifP => _ //=; rewrite IH. Qed.

  Lemma run_short m d (obj : 'M[R]_(m, d) -> R) grad n lr x : 10%:R ^- 5 <= lr -> (n <= 52)%N ->
    (run obj grad n (start_schedule lr) x).1 = iter n (fun y => y - lr *: grad y) x.
  Proof.
    move=> L N. rewrite run_fold short //. clear N. elim: n x => [|n IH] x //=. by rewrite IH -iterSr.
  Qed.

  Lemma iter_rows m d (grad : 'M[R]_(m, d) -> 'M[R]_(m, d)) (g : 'rV[R]_d -> 'rV[R]_d) (i : 'I_m) c lr n x :
    (forall y, row i (grad y) = c *: g (row i y)) ->
    row i (iter n (fun y => y - lr *: grad y) x) = iter n (fun y => y - (c * lr) *: g y) (row i x).
  Proof. by move=> E; elim: n => [|n IH] //=; rewrite linearB linearZ /= E IH scalerA [lr * c]mulrC. Qed.

  (** Any objective that is the mean of one objective for each point. *)
  Theorem shared_rate m d (obj : 'M[R]_(m, d) -> R) grad (obj1 : 'rV[R]_d -> R) (g : 'rV[R]_d -> 'rV[R]_d) (i : 'I_m) n lr x0 x u :
    (forall y, row i (grad y) = m%:R^-1 *: g (row i y)) -> (n <= 52)%N -> 10%:R ^- 5 <= lr / m%:R ->
    iterative obj grad x0 n lr = Some (x, u) ->
    exists u', iterative obj1 g (row i x0) n (lr / m%:R) = Some (row i x, u').
  Proof.
    move=> E N L.
    have m1 : 1 <= (m%:R : R) by rewrite ler1n; exact: leq_ltn_trans (leq0n i) (ltn_ord i).
    have m0 : 0 < (m%:R : R) by apply: lt_le_trans m1; rewrite ltr01.
    have L0 : 0 <= lr / m%:R by apply: le_trans L; rewrite ltW // e_gt0.
    have L1 : 10%:R ^- 5 <= lr.
      apply: (le_trans L). rewrite ler_pdivr_mulr //. apply: ler_pemulr => //.
      by move: L0; rewrite pmulr_lge0 // invr_gt0.
    have L2 : 0 <= lr by apply: le_trans L1; rewrite ltW // e_gt0.
    rewrite /iterative !ltNge L0 L2 /= => -[H].
    have X : (run obj grad n (start_schedule lr) x0).1 = x by rewrite H.
    exists (run obj1 g n (start_schedule (lr / m%:R)) (row i x0)).2.
    rewrite [X in Some X]surjective_pairing. congr (Some (_, _)).
    by rewrite run_short // -X run_short // (iter_rows _ _ _ E) [_^-1 * lr]mulrC.
  Qed.

  Theorem shared_steps m d (obj : 'M[R]_(m, d) -> R) grad (g : 'rV[R]_d -> 'rV[R]_d) (i : 'I_m) n lr x0 x u :
    (forall y, row i (grad y) = m%:R^-1 *: g (row i y)) -> (n <= 52)%N -> 10%:R ^- 5 <= lr ->
    iterative obj grad x0 n lr = Some (x, u) ->
    row i x = iter n (fun y => y - (lr / m%:R) *: g y) (row i x0).
  Proof.
    move=> E N L. rewrite /iterative. case: ifP => // _ [H].
    have -> : x = (run obj grad n (start_schedule lr) x0).1 by rewrite H.
    by rewrite run_short // (iter_rows _ _ _ E) [_^-1 * lr]mulrC.
  Qed.

  Lemma linear_rows n m d (S : 'M[R]_(n, d)) (K : 'M[R]_(m, n)) (i : 'I_m) x :
    row i (linear_grad S K x) = m%:R^-1 *: linear_grad S (row i K) (row i x).
  Proof.
    rewrite /linear_grad linearZ /= scalerA mul1n natrM invfM mulrCA.
    by rewrite row_mul linearB /= row_mul.
  Qed.

  (** One step. *)
  Theorem one_step_iff n m d (S : 'M[R]_(n, d)) (K : 'M[R]_(m, n)) (i : 'I_m) lr x0 x u y v : 
    iterative (linear_obj S K) (linear_grad S K) x0 1 lr = Some (x, u) ->
    iterative (linear_obj S (row i K)) (linear_grad S (row i K)) (row i x0) 1 lr = Some (y, v) ->
    (row i x = y) <-> [\/ m = 1%N, lr = 0 | linear_grad S (row i K) (row i x0) = 0].
  Proof.
    rewrite /iterative. case: ifP => // _ [H1] [H2].
    have X : x = x0 - lr *: linear_grad S K x0 by move: H1; rewrite /=; case: ifP => _ [<- _].
    have Y : y = row i x0 - lr *: linear_grad S (row i K) (row i x0) by move: H2; rewrite /=; case: ifP => _ [<- _].
    rewrite X Y linearB linearZ /= linear_rows.
    have [G HG] : exists G, linear_grad S (row i K) (row i x0) = G by eexists. rewrite HG. clear - R i.
    have m1 : 1 <= (m%:R : R) by rewrite ler1n; exact: leq_ltn_trans (leq0n i) (ltn_ord i).
    have m0 : (m%:R : R) != 0 by rewrite gt_eqF //; apply: lt_le_trans m1; rewrite ltr01.
    split.
    - move/addrI/oppr_inj/eqP. rewrite -subr_eq0 -scalerBr -[X in _ - X]scale1r -scalerBl !scaler_eq0 subr_eq0.
      case/orP => [/eqP -> | /orP [/eqP E | /eqP ->]]; [by constructor 2 | constructor 1 | by constructor 3].
      have : (m%:R : R) = 1 by rewrite -[m%:R]invrK E invr1.
      by move/eqP; rewrite -[1]/(1%:R) eqr_nat => /eqP.
    - case=> [E | -> | ->]; [by have -> : (m%:R : R) = 1; [rewrite E | rewrite invr1 scale1r] | by rewrite !scale0r | by rewrite !scaler0].
  Qed.
End Shared.
