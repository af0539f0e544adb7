(** Principal components of several views: examples. *)
From mathcomp Require Import all_ssreflect all_algebra.
From Verif Require Import NystromM MatrixSpec KpcaM KpcaSpec SolverExamples InterlaceProofs ViewsM.
Set Implicit Arguments. Unset Strict Implicit. Unset Printing Implicit Defensive.
Import GRing.Theory Num.Theory Order.POrderTheory Order.TotalTheory.
Local Open Scope ring_scope.

Section Examples.
  Variable R : rcfType.
  (** Two points seen in two views, the second of which counts twice; the matrices are those
      with the values one and two, and the identity. *)
  Definition ex_kappa (v : 'I_2) : R := if v == 0 then 1 else 2%:R.
  Definition ex_views (v : 'I_2) : 'M[R]_2 := if v == 0 then diag_mx (ladder R) else 1%:M.
  Definition ex_values (v : 'I_2) : 'rV[R]_2 := if v == 0 then ladder R else const_mx 2%:R.
  Lemma ex_each v : eigendecomposition (view_K (ex_kappa v) (ex_views v)) (ex_values v) 1%:M.
  Proof.
    rewrite /view_K /ex_kappa /ex_views /ex_values. case: (v == 0).
      by rewrite scale1r; exact: ladder_decomposition.
    split; first by rewrite trmx1 mulmx1. split; last by move=> a b _; rewrite !mxE.
    by rewrite mulmx1 mul1mx diag_const_mx scalemx1.
  Qed.
  Lemma ex_joint : eigendecomposition (all_K (fun v => view_K (ex_kappa v) (ex_views v))) (\row_j (ladder R 0 j + 2%:R)) 1%:M.
  Proof.
    rewrite /all_K big_ord_recl big_ord1 /view_K /ex_kappa /ex_views /= scale1r. exact: shifted (ladder_decomposition R) _.
  Qed.
  Lemma ex_kappa_ge0 v : 0 <= ex_kappa v.
  Proof. rewrite /ex_kappa. case: ifP => _; [exact: ler01|exact: ler0n]. Qed.
  Lemma ex_psd v : psd (ex_views v).
  Proof.
    rewrite /ex_views. case: ifP => _ x.
    - rewrite /qform -mulmxA mxE. apply: sumr_ge0 => i _. rewrite mul_diag_mx !mxE mulrCA mulr_ge0 //; last by rewrite -expr2 sqr_ge0.
      by case: ifP => _; [exact: ler01|exact: ler0n].
    - rewrite /qform mulmx1 -sqnE. exact: sqn_ge0.
  Qed.

  (** Two points with one feature in each of two views: the first point shows only in the
      first view and the second one only in the second. *)
  Definition ex_phi : 'M[R]_(1 + 1, 1) := lsubmx 1%:M.
  Definition ex_psi : 'M[R]_(1 + 1, 1) := rsubmx 1%:M.
  Lemma ex_phi_all : eigendecomposition (second_moment (all_phi ex_phi ex_psi)) (const_mx (1 / 2%:R)) 1%:M.
  Proof.
    split; first by rewrite trmx1 mulmx1. split; last by move=> a b _; rewrite !mxE.
    by rewrite /second_moment /all_phi hsubmxK trmx1 !mulmx1 mul1mx diag_const_mx scalemx1 div1r.
  Qed.
  Lemma ex_phi_first : eigendecomposition (second_moment ex_phi) (const_mx (1 / 2%:R)) 1%:M.
  Proof.
    split; first by rewrite trmx1 mulmx1. split; last by move=> a b _; rewrite !mxE.
    rewrite mulmx1 mul1mx diag_const_mx. apply/matrixP => a b. rewrite !ord1 !mxE big_ord_recl big_ord1 !mxE /=.
    by rewrite mulr1 mulr0 addr0 mulr1 div1r.
  Qed.
  Lemma ex_phi_second : eigendecomposition (second_moment ex_psi) (const_mx (1 / 2%:R)) 1%:M.
  Proof.
    split; first by rewrite trmx1 mulmx1. split; last by move=> a b _; rewrite !mxE.
    rewrite mulmx1 mul1mx diag_const_mx. apply/matrixP => a b. rewrite !ord1 !mxE big_ord_recl big_ord1 !mxE /=.
    by rewrite mulr1 mulr0 add0r mulr1 div1r.
  Qed.
End Examples.
