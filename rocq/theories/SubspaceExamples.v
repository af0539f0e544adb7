(** Principal subspaces of nearby matrices: examples. *)
From mathcomp Require Import all_ssreflect all_algebra.
From Verif Require Import NystromM MatrixSpec NystromMProofs KpcaM KpcaSpec KpcaMore SolverExamples InterlaceProofs SubspaceSpec SubspaceProofs.
Set Implicit Arguments. Unset Strict Implicit. Unset Printing Implicit Defensive.
Import GRing.Theory Num.Theory Order.POrderTheory Order.TotalTheory.
Local Open Scope ring_scope.

Section Examples.
  Variable R : rcfType.
  Lemma ladder_gap : gap 1 (ladder R) 1.
  Proof. move=> [[|[|//]] i] [[|[|//]] j] //= _ _. by rewrite !mxE. Qed.
  Lemma ladder_isolated : isolated 1 (ladder R) 1.
  Proof. move=> [[|[|//]] i] //= _. by rewrite !mxE /= opprD addrA subrr sub0r normrN normr1. Qed.

  (** The second kernel: a quarter more for the first point. *)
  Definition tilted : 'rV[R]_2 := \row_j (if j == 0 then 1 + 1 / 4%:R else 2%:R).
  Lemma tilted_decomposition : eigendecomposition (diag_mx tilted) tilted 1%:M.
  Proof.
    split; first by rewrite trmx1 mulmx1. split; first by rewrite mulmx1 mul1mx.
    move=> [[|[|//]] i] [[|[|//]] j] //= _; rewrite !mxE //=. rewrite ler_add2l ler_pdivr_mulr ?ltr0n // mul1r. by rewrite (ler_nat _ 1 4).
  Qed.
  Lemma frob_diag n (u v : 'rV[R]_n) : frobenius2 (diag_mx u - diag_mx v) = \sum_i (u 0 i - v 0 i) ^+ 2.
  Proof.
    apply: eq_bigr => i _. rewrite (bigD1 i) //= big1 ?addr0 => [|j /negbTE N].
      by rewrite !mxE eqxx !mulr1n.
    by rewrite !mxE eq_sym N !mulr0n subrr expr0n.
  Qed.
  Lemma tilted_near : frobenius2 (diag_mx (ladder R) - diag_mx tilted) <= (1 / 4%:R) ^+ 2.
  Proof.
    rewrite frob_diag big_ord_recl big_ord1 !mxE /= subrr expr0n /= addr0 opprD addrA subrr sub0r sqrrN. exact: lexx.
  Qed.
  Lemma half_le2 : ~~ (2%:R < 1 / 2%:R :> R).
  Proof.
    rewrite -leNgt ler_pdivr_mulr ?ltr0n // -natrM. by rewrite (ler_nat _ 1 4).
  Qed.
  Lemma one_kept (s : 'rV[R]_2) : s 0 1 = 2%:R -> nystrom_dim (1 / 2%:R) (eigs_values (isT : (1 <= 2)%N) s) = 1%N.
  Proof.
    move=> H. rewrite dim_nat /= /ranked; case: insubP => [j _ Ej|] //=.
    have -> : rev_ord j = 1 by apply: val_inj; rewrite /= Ej. by rewrite H half_le2.
  Qed.

  (** Two kernels that differ by at most [e], whose first components are orthogonal. *)
  Definition low (e : R) : 'rV[R]_2 := \row_j (if j == 0 then 2%:R else 2%:R + e).
  Definition high (e : R) : 'rV[R]_2 := \row_j (if j == 0 then 2%:R + e else 2%:R).
  Definition swap : 'M[R]_2 := \matrix_(i, j) (i != j)%:R.
  Lemma low_decomposition e : 0 <= e -> eigendecomposition (diag_mx (low e)) (low e) 1%:M.
  Proof.
    move=> P. split; first by rewrite trmx1 mulmx1. split; first by rewrite mulmx1 mul1mx.
    move=> [[|[|//]] i] [[|[|//]] j] //= _; rewrite !mxE //=. by rewrite ler_addl.
  Qed.
  Lemma swap_entry i j : swap i j = (i != j)%:R.
  Proof. by rewrite mxE. Qed.
  Lemma high_decomposition e : 0 <= e -> eigendecomposition (diag_mx (high e)) (low e) swap.
  Proof.
    move=> P. split; last (split; last by case: (low_decomposition P) => _ []).
      apply/matrixP => i j. rewrite [LHS]mxE big_ord_recl big_ord1 ![(_^T) _ _]mxE !swap_entry [RHS]mxE.
      by case: i j => [[|[|//]] i] [[|[|//]] j] //=; rewrite ?mulr1 ?mulr0 ?addr0 ?add0r.
    rewrite mul_diag_mx mul_mx_diag. apply/matrixP => i j. rewrite [LHS]mxE [RHS]mxE swap_entry ![_ 0 _]mxE.
    by case: i j => [[|[|//]] i] [[|[|//]] j] //=; rewrite ?mulr1 ?mul1r ?mulr0 ?mul0r.
  Qed.
  Lemma low_kept e (Hk : (1 <= 2)%N) : 0 <= e -> nystrom_dim 1 (eigs_values Hk (low e)) = 1%N.
  Proof.
    move=> P. rewrite dim_nat /= /ranked; case: insubP => [j _ Ej|] //=.
    have -> : rev_ord j = 1 by apply: val_inj; rewrite /= Ej.
    by rewrite mxE /= -leNgt ler_paddr // (ler_nat _ 1 2).
  Qed.
End Examples.
