(** The first of three orthogonal training points is left out. *)
From mathcomp Require Import all_ssreflect all_fingroup all_algebra.
From Verif Require Import MatrixSpec KpcaM KpcaSpec LssvmM LssvmSpec LssvmMProofs LssvmMonoProofs StableSpec StableProofs StableExamples LeaveOutProofs.
Set Implicit Arguments. Unset Strict Implicit. Unset Printing Implicit Defensive.
Import GRing.Theory Num.Theory Order.POrderTheory Order.TotalTheory.
Local Open Scope ring_scope.

Section Three.
  Variable R : rcfType.
  Definition without (a : 'I_2) : 'I_3 := lift 0 a.
  Definition h2 : 'cV[R]_2 := \col_i (if i == 0%N :> nat then - 2%:R^-1 else 2%:R^-1).
  Lemma without_inj : injective without.
  Proof. move=> a c. exact: lift_inj. Qed.
  Lemma K2 : between without (K3 R) = 1%:M.
  Proof. apply/matrixP => a c. rewrite !mxE. by rewrite (inj_eq without_inj). Qed.
  Lemma K2_psd : psd (between without (K3 R)).
  Proof. exact: (between_psd without_inj (@K3_psd R)). Qed.
  Lemma two_halves : (2%:R^-1 + 2%:R^-1 : R) = 1.
  Proof. by rewrite -mulr2n -[LHS]mulr_natr mulVf // pnatr_eq0. Qed.
  Lemma solved2 : solve_dual (between without (K3 R)) 1 (rows_of without (Y3 R)) = Some (h2, const_mx (- 1)).
  Proof.
    apply: (solve_dual_unique K2_psd ltr01 (isT : (0 < 2)%N)). split.
    - rewrite K2 mul1mx scale1r. apply/matrixP => a j. rewrite !mxE. case: a => [[|[|a]] Ha] //=.
      + rewrite opprD !opprK addrCA mulr2n opprD addrNK -[X in _ - X]two_halves. by rewrite opprD addrA subrr sub0r.
      + rewrite sub0r opprD opprK. apply/eqP. by rewrite addrC subr_eq two_halves.
    - move=> j. rewrite !big_ord_recl big_ord0 !mxE /= addr0. by rewrite addNr.
  Qed.
  Lemma first_out : (0 : 'I_3) \notin codom without.
  Proof. apply/codomP => -[a E]. by move/eqP: (neq_lift (0 : 'I_3) a); rewrite -/(without a) -E. Qed.
  Lemma predict_without : predict_dual 1 h2 (const_mx (- 1)) (columns_of without (K3 R)) 0 0 = - 1.
  Proof.
    rewrite /predict_dual sqrtr1 scale1r rows_all_ones [LHS]mxE [X in X + _]mxE big1 ?add0r; first by rewrite !mxE.
    move=> a _. by rewrite [columns_of _ _ _ _]mxE [K3 _ _ _]mxE (negbTE (neq_lift 0 a)) mul0r.
  Qed.
  Lemma predict_with : predict_dual 1 (h3 R) 0 (K3 R) 0 0 = 1.
  Proof. by rewrite /predict_dual mulmx0 scaler0 addr0 mul1mx mxE. Qed.
End Three.
