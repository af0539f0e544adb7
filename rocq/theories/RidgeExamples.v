(** Ridge regressions on three orthogonal points. *)
From mathcomp Require Import all_ssreflect all_fingroup all_algebra.
From Verif Require Import NystromM MatrixSpec KpcaM KpcaSpec LssvmM LssvmSpec LssvmMProofs StableExamples NearExamples
  RidgeM RidgeSpec RidgeProofs.
Set Implicit Arguments. Unset Strict Implicit. Unset Printing Implicit Defensive.
Import GRing.Theory Num.Theory Order.POrderTheory Order.TotalTheory.
Local Open Scope ring_scope.

Lemma ord2_cases (i : 'I_2) : (i == 0) || (i == lift ord0 ord0).
Proof. by case: i => [[|[|k]] H]. Qed.

Section Three.
  Variable R : rcfType.
  Lemma ridge3 : ridge_dual (K3 R) 1 (Y3 R) = Some (h3 R).
  Proof.
    have S := solved3 R. rewrite -[X in solve_dual _ X]invr1 in S.
    have [H _] := proj1 (lssvm_is_ridge (@K3_psd R) (@ltr01 R) (isT : (0 < 3)%N) _ _ _) S.
    by rewrite rows_zero subr0 in H.
  Qed.
  (** The same points as features. *)
  Lemma ridge3_features : ridge_dual ((1%:M : 'M[R]_3) *m 1%:M^T) 1 (Y3 R) = Some (h3 R).
  Proof. rewrite trmx1 mulmx1. exact: ridge3. Qed.
  Lemma ridge3_primal : exists w, ridge_primal (1%:M : 'M[R]_3) 1 (Y3 R) = Some w.
  Proof.
    have [h S] := ridge_exists (@outer_psd R 3 3 1%:M) (divr_gt0 (@ltr01 R) (ltr0Sn R 2)) (Y3 R).
    eexists. exact: (ridge_primal_dual _ (@ltr01 R) S).
  Qed.
  Lemma Y3_moment : (1%:M : 'M[R]_3)^T *m Y3 R <> 0.
  Proof.
    rewrite trmx1 mul1mx => /matrixP /(_ 0 0). rewrite !mxE /= => /eqP. by rewrite pnatr_eq0.
  Qed.
  (** A centered kernel: two opposite points. *)
  Definition K2c : 'M[R]_2 := \matrix_(i, j) (if i == j then 1 else - 1).
  Definition Y2c : 'cV[R]_2 := \col_i (if i == 0 then 3%:R else - 3%:R).
  Definition h2c : 'cV[R]_2 := \col_i (if i == 0 then 1 else - 1).
  Definition phi2c : 'cV[R]_2 := \col_i (if i == 0 then 1 else - 1).
  Lemma K2c_outer : K2c = phi2c *m phi2c^T.
  Proof.
    apply/matrixP => i j. rewrite !mxE big_ord1 !mxE.
    case/orP: (ord2_cases i) => /eqP ->; case/orP: (ord2_cases j) => /eqP -> /=; by rewrite ?mulr1 ?mul1r ?mulrNN ?mulr1.
  Qed.
  Lemma K2c_psd : psd K2c.
  Proof. rewrite K2c_outer. exact: outer_psd. Qed.
  Lemma K2c_centered : columns_sum_to_zero K2c.
  Proof.
    move=> j. rewrite !big_ord_recl big_ord0 !mxE. case/orP: (ord2_cases j) => /eqP -> /=; by rewrite ?addr0 ?subrr ?addNr.
  Qed.
  Lemma Y2c_centered : sums_to_zero Y2c.
  Proof. move=> j. by rewrite !big_ord_recl big_ord0 !mxE /= addr0 subrr. Qed.
  Lemma ridge2c : ridge_dual K2c 1 Y2c = Some h2c.
  Proof.
    apply/(ridge_exactly K2c_psd (@ltr01 R)). rewrite invr1 scale1r. apply/matrixP => i j. rewrite [LHS]mxE [X in _ + X]mxE.
    rewrite [(K2c *m h2c) _ _]mxE !big_ord_recl big_ord0 !mxE.
    have E : 3%:R = 1 + 1 + 1 :> R by rewrite (natrD R 2 1) mulr2n.
    case/orP: (ord2_cases i) => /eqP -> /=.
      by rewrite mulr1 mulrNN mulr1 addr0 E opprD addrA addrK addrK.
    by rewrite mulr1 mul1r addr0 opprD opprK E !opprD addrA addrNK addrNK.
  Qed.
End Three.
