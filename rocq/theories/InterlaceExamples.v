(** Principal variances of parts: examples. *)
From mathcomp Require Import all_ssreflect all_algebra.
From Verif Require Import NystromM MatrixSpec NystromMProofs KpcaM KpcaSpec StableSpec SolverExamples InterlaceProofs.
Set Implicit Arguments. Unset Strict Implicit. Unset Printing Implicit Defensive.
Import GRing.Theory Num.Theory Order.POrderTheory Order.TotalTheory.
Local Open Scope ring_scope.

Section Examples.
  Variable R : rcfType.
  (** The second of two points. *)
  Definition second (_ : 'I_1) : 'I_2 := 1.
  Lemma second_inj : injective second.
  Proof. by move=> a b _; rewrite !ord1. Qed.
  Lemma second_decomposition : eigendecomposition (between second (diag_mx (ladder R))) (const_mx 2%:R) 1%:M.
  Proof.
    split; first by rewrite trmx1 mulmx1. split; last by move=> a b _; rewrite !mxE.
    rewrite mulmx1 mul1mx. apply/matrixP => a b. by rewrite !ord1 !mxE.
  Qed.
  (** Both values larger by one half. *)
  Lemma raised_decomposition : eigendecomposition (diag_mx (ladder R) + (1 / 2%:R) *: 1%:M) (\row_j (ladder R 0 j + 1 / 2%:R)) 1%:M.
  Proof. exact: shifted (ladder_decomposition R) _. Qed.
  Lemma raised_close i j : `|(diag_mx (ladder R) + (1 / 2%:R) *: 1%:M) i j - diag_mx (ladder R) i j| <= 1 / 2%:R.
  Proof.
    have -> : (diag_mx (ladder R) + (1 / 2%:R) *: 1%:M) i j - diag_mx (ladder R) i j = 1 / 2%:R * (i == j)%:R.
      move: (diag_mx (ladder R)) => B. by rewrite !mxE addrAC subrr add0r.
    have P : 0 <= 1 / 2%:R :> R by rewrite divr_ge0 ?ler0n ?ler01.
    by case: (i == j); rewrite ?mulr1 ?mulr0 ?normr0 // ger0_norm.
  Qed.
  Lemma raised_larger : psd ((diag_mx (ladder R) + (1 / 2%:R) *: 1%:M) - diag_mx (ladder R)).
  Proof.
    move=> x. rewrite [diag_mx _ + _]addrC addrK /qform -scalemxAr mulmx1 -scalemxAl mxE -sqnE mulr_ge0 ?sqn_ge0 //.
    by rewrite divr_ge0 ?ler0n ?ler01.
  Qed.
End Examples.
