(** Three orthogonal points that are both the sample and the new points. *)
From mathcomp Require Import all_ssreflect all_fingroup all_algebra.
From Verif Require Import NystromM MatrixSpec KpcaM KpcaSpec LssvmM LssvmSpec LssvmMProofs StableExamples NearSpec.
Set Implicit Arguments. Unset Strict Implicit. Unset Printing Implicit Defensive.
Import GRing.Theory Num.Theory Order.POrderTheory Order.TotalTheory.
Local Open Scope ring_scope.

Section Three.
  Variable R : rcfType.
  Lemma joint3 : psd (block_mx (K3 R) (K3 R)^T (K3 R) (K3 R)).
  Proof.
    have -> : block_mx (K3 R) (K3 R)^T (K3 R) (K3 R) = col_mx (1%:M : 'M[R]_3) 1%:M *m (col_mx (1%:M : 'M[R]_3) 1%:M)^T.
      by rewrite tr_col_mx mul_col_row !trmx1 !mulmx1.
    exact: outer_psd.
  Qed.
  Lemma dist3 (x y : 'I_3) : x != y -> kernel_dist2 (K3 R) x y = 2%:R.
  Proof.
    move=> N. rewrite /kernel_dist2 !mxE !eqxx (negbTE N) eq_sym (negbTE N) /= !subr0.
    by rewrite mulr2n.
  Qed.
  Lemma values3 : predict_dual 1 (h3 R) 0 (K3 R) 0 0 - predict_dual 1 (h3 R) 0 (K3 R) 1 0 = 2%:R.
  Proof. by rewrite /predict_dual mulmx0 scaler0 addr0 mul1mx !mxE /= opprK mulr2n. Qed.
  Lemma spread3 : \sum_i (Y3 R i 0 - 0) ^+ 2 = 8%:R.
  Proof.
    rewrite !big_ord_recl big_ord0 !mxE /= !subr0 sqrrN expr0n /= !addr0 -!natrX -natrD. by [].
  Qed.
  Lemma decomposition3 : eigendecomposition (K3 R) (const_mx 1) 1%:M.
  Proof.
    split; first by rewrite trmx1 mulmx1. split; last by move=> i j _; rewrite !mxE.
    by rewrite mulmx1 mul1mx diag_const_mx.
  Qed.
  Definition phi3 : 'M[R]_3 := 1%:M.
  Lemma features3 : eigendecomposition (second_moment phi3) (const_mx 3%:R^-1) 1%:M.
  Proof.
    split; first by rewrite trmx1 mulmx1. split; last by move=> i j _; rewrite !mxE.
    by rewrite /second_moment /phi3 trmx1 !mulmx1 mul1mx diag_const_mx scalemx1.
  Qed.
End Three.
