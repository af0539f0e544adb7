(** Predicting a view: examples. *)
From mathcomp Require Import all_ssreflect all_algebra.
From Verif Require Import NystromM MatrixSpec NystromMProofs KpcaM KpcaSpec KpcaMProofs SolverSpec StableSpec RepeatSpec RepeatProofs RepeatExamples GenerateProofs MvProjectM MvProjectProofs.
Set Implicit Arguments. Unset Strict Implicit. Unset Printing Implicit Defensive.
Import GRing.Theory Num.Theory Order.POrderTheory Order.TotalTheory.
Local Open Scope ring_scope.

Section Examples.
  Variable R : rcfType.
  (** One point seen by two views of one feature, which is 1 in both. *)
  Definition one_view : 'M[R]_(1, 1) := const_mx 1.
  Lemma views_moment : second_moment (row_mx one_view one_view) = between same (1%:M : 'M[R]_1).
  Proof.
    have C : row_mx one_view one_view = const_mx 1 by rewrite row_mx_const.
    rewrite C. apply/matrixP => i j. rewrite /second_moment invr1 scale1r !mxE big_ord1 !mxE mulr1. by [].
  Qed.
  Lemma views_decomposition : eigendecomposition (second_moment (row_mx one_view one_view)) (pair_values R) (pair_vectors R).
  Proof. rewrite views_moment. exact: pair_decomposition. Qed.
  Notation Hk1 := (isT : (1 <= 1 + 1)%N).
  Notation W := (weight (primal_param 1 Hk1 (pair_values R) (pair_vectors R)) (primal_vals 1 Hk1 (pair_values R))).
  Lemma views_left j : NystromMProofs.left_out (pair_values R) 1 1 j -> pair_values R 0 j = 0.
  Proof.
    rewrite /NystromMProofs.left_out mxE. case: j => [[|[|//]] j] //=. rewrite -[1]/(1%:R) ltr_nat. by [].
  Qed.
  Lemma views_alike : usubmx W = dsubmx W.
  Proof.
    apply/matrixP => a i. rewrite !mxE. apply: eq_bigr => c _. congr (_ * _). rewrite !mxE.
    have T : forall e : 'I_1, top Hk1 e = 1 by move=> e; rewrite (ord1 e); apply: val_inj.
    by rewrite !T !andbF.
  Qed.
  Lemma views_unit : (usubmx W)^T *m usubmx W \in unitmx.
  Proof.
    have G := solved_gram Hk1 views_decomposition ltr01. rewrite -views_alike in G.
    have N2 : (2%:R : R) != 0 by rewrite pnatr_eq0.
    have P : forall i, 0 < primal_vals 1 Hk1 (pair_values R) 0 i by move=> i; apply: (lt_le_trans ltr01); exact: vals_ge.
    have D := diag_inv P. rewrite -G in D.
    set A := (usubmx W)^T *m usubmx W in D *. have D2 : A *m (2%:R *: diag_mx (map_mx (fun v : R => v^-1) (primal_vals 1 Hk1 (pair_values R)))) = 1%:M.
      by rewrite -D mulmxDl -scalemxAr -[X in X *: _]/(1 + 1) scalerDl !scale1r.
    by case/mulmx1_unit: D2.
  Qed.
  (** The kernel matrix of distinct points, in two views. *)
  Definition half n : 'M[R]_n := (2%:R^-1)%:M.
  Lemma half_twice n : half n + half n = 1%:M.
  Proof. by rewrite /half -raddfD half_half. Qed.
  Lemma half_decomposition n : eigendecomposition (half n + half n) (const_mx 1) 1%:M.
  Proof.
    rewrite half_twice. split; first by rewrite trmx1 mulmx1. split; last by move=> i j _; rewrite !mxE.
    by rewrite !mul1mx diag_const_mx.
  Qed.
  Lemma half_left n j : NystromMProofs.left_out (const_mx 1 : 'rV[R]_n) 1 n j -> (const_mx 1 : 'rV[R]_n) 0 j = 0.
  Proof. by rewrite /NystromMProofs.left_out subnn ltn0 mxE ltxx. Qed.
  Lemma half_kept n : nystrom_dim 1 (eigs_values (leqnn n) (const_mx 1 : 'rV[R]_n)) = n.
  Proof.
    rewrite /nystrom_dim /kept (eq_filter (a2 := predT)) ?filter_predT ?size_enum_ord // => i. by rewrite !mxE ltxx.
  Qed.
End Examples.
