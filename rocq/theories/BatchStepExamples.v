(** Pre-images of several points found together: examples. *)
From Verif Require Import Base.
From mathcomp Require Import all_ssreflect all_algebra.
From Verif Require Import LssvmM IterativeM IterativeSpec IterativeProofs BatchStepProofs.
Set Implicit Arguments. Unset Strict Implicit. Unset Printing Implicit Defensive.
Import GRing.Theory Num.Theory Order.POrderTheory Order.TotalTheory.
Local Open Scope ring_scope.

Section Two.
  Variable R : rcfType.
  Let S : 'M[R]_1 := 1.
  Let K : 'M[R]_(2, 1) := const_mx 1.

  Lemma two_points_rate : 10%:R ^- 5 <= (10%:R ^- 3 / 2%:R : R).
  Proof.
    rewrite ler_pdivl_mulr ?ltr0n // mulrC ler_pdivr_mulr ?exprn_gt0 ?ltr0n // mulrC ler_pdivl_mulr ?exprn_gt0 ?ltr0n //.
    by rewrite -!natrX -!natrM ler_nat.
  Qed.
  Lemma two_points_move : linear_grad S (row ord0 K) (row ord0 (0 : 'M[R]_(2, 1))) != 0.
  Proof.
    apply/eqP => /matrixP /(_ ord0 ord0). rewrite linear0 /linear_grad mul0mx sub0r mulmx1 !mxE muln1 invr1 mulr1 => /eqP.
    by rewrite mulrN1 oppr_eq0 pnatr_eq0.
  Qed.
  Lemma two_points_differ :
    exists x u y v, iterative (linear_obj S K) (linear_grad S K) 0 1 (10%:R ^- 3) = Some (x, u) /\
       iterative (linear_obj S (row ord0 K)) (linear_grad S (row ord0 K)) (row ord0 (0 : 'M[R]_(2, 1))) 1 (10%:R ^- 3) = Some (y, v) /\
       row ord0 x <> y.
  Proof.
    have L : 0 < (10%:R ^- 3 : R) by exact: e_gt0.
    rewrite /iterative ltNge (ltW L) /=.
    case H1 : (run (linear_obj S K) (linear_grad S K) 1 (start_schedule (10%:R ^- 3)) 0) => [x u].
    case H2 : (run (linear_obj S (row ord0 K)) (linear_grad S (row ord0 K)) 1 (start_schedule (10%:R ^- 3)) (row ord0 (0 : 'M[R]_(2, 1)))) => [y v].
    exists x, u, y, v. split; [by move: H1; rewrite /= => ->|]. split; [by move: H2; rewrite /= => ->|]. 
    have A : iterative (linear_obj S K) (linear_grad S K) 0 1 (10%:R ^- 3) = Some (x, u) by rewrite /iterative ltNge (ltW L) H1.
    have B : iterative (linear_obj S (row ord0 K)) (linear_grad S (row ord0 K)) (row ord0 (0 : 'M[R]_(2, 1))) 1 (10%:R ^- 3) = Some (y, v)
      by rewrite /iterative ltNge (ltW L) H2.
    move/(one_step_iff A B) => [//|Z|Z].
    - by move: L; rewrite Z ltxx.
    - by move: two_points_move; rewrite Z eqxx.
  Qed.
End Two.
