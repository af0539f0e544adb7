(** Three orthogonal training points, of which the third is explained by the model of the two
    others. *)
From mathcomp Require Import all_ssreflect all_fingroup all_algebra.
From Verif Require Import MatrixSpec KpcaM KpcaSpec LssvmM LssvmSpec LssvmMProofs LssvmMonoProofs StableSpec StableProofs.
Set Implicit Arguments. Unset Strict Implicit. Unset Printing Implicit Defensive.
Import GRing.Theory Num.Theory Order.POrderTheory Order.TotalTheory.
Local Open Scope ring_scope.

Section Three.
  Variable R : rcfType.
  Definition K3 : 'M[R]_3 := 1%:M.
  Definition Y3 : 'cV[R]_3 := \col_i (if i == 0%N :> nat then 2%:R else if i == 1%N :> nat then - 2%:R else 0).
  Definition h3 : 'cV[R]_3 := \col_i (if i == 0%N :> nat then 1 else if i == 1%N :> nat then - 1 else 0).
  (** Other targets: only the first changes. *)
  Definition Y3' : 'cV[R]_3 := \col_i (if i == 0%N :> nat then - 1 else if i == 1%N :> nat then - 2%:R else 0).
  Definition firsts (a : 'I_2) : 'I_3 := widen_ord (leqnSn 2) a.
  Lemma K3_psd : psd K3.
  Proof. move=> c. rewrite /qform mulmx1 mxE. apply: sumr_ge0 => i _. by rewrite mxE -expr2 sqr_ge0. Qed.
  Lemma K3_sym : K3^T = K3.
  Proof. exact: trmx1. Qed.
  Lemma kkt3 : kkt K3 1 Y3 h3 0.
  Proof.
    split.
    - apply/matrixP => i j. rewrite mul1mx !mxE addr0 mul1r. case: ifP => _; first by rewrite mulr2n addrK.
      case: ifP => _; last by rewrite subr0. by rewrite opprK mulr2n opprD addrNK.
    - move=> j. rewrite !big_ord_recl big_ord0 !mxE /= addrA subrr. by rewrite !addr0.
  Qed.
  Lemma solved3 : solve_dual K3 1 Y3 = Some (h3, 0).
  Proof. exact: (solve_dual_unique K3_psd ltr01 _ kkt3). Qed.
  Lemma solved3' : exists h b, solve_dual K3 1 Y3' = Some (h, b).
  Proof. have [h [b [E _]]] := solve_dual_kkt K3_psd (@ltr01 R) (isT : (0 < 3)%N) Y3'. by exists h, b. Qed.
  Lemma only_first : forall r : 'I_3, r != 0 -> Y3 r 0 = Y3' r 0.
  Proof. move=> r Nr. rewrite !mxE. case: eqP => // E. by case/negP: Nr; apply/eqP/val_inj. Qed.
  Lemma first_changes : Y3 0 0 - Y3' 0 0 = 3%:R.
  Proof. by rewrite !mxE /= opprK -[1]/(1%:R) -natrD. Qed.
  Lemma firsts_inj : injective firsts.
  Proof. move=> a c /(congr1 val) /= E. exact: val_inj. Qed.
  Lemma last_out : left_out firsts ord_max.
  Proof. move=> a. apply/eqP => /(congr1 val) /= E. by have := ltn_ord a; rewrite E. Qed.
  Lemma out_last i : left_out firsts i -> i = ord_max.
  Proof.
    move=> L. apply: val_inj => /=. case: (ltnP i 2) => H; last by apply/eqP; rewrite eqn_leq H -ltnS ltn_ord.
    exfalso. have := L (Ordinal H). case/negP. by apply/eqP/val_inj.
  Qed.
  Lemma last_zero : forall i, left_out firsts i -> forall j, h3 i j = 0.
  Proof. move=> i /out_last -> j. by rewrite mxE. Qed.
End Three.
