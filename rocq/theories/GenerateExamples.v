(** One drawn point: examples. *)
From mathcomp Require Import all_ssreflect all_algebra.
From Verif Require Import NystromM MatrixSpec NystromMProofs KpcaM KpcaSpec KpcaMProofs GenerateM GenerateProofs.
Set Implicit Arguments. Unset Strict Implicit. Unset Printing Implicit Defensive.
Import GRing.Theory Num.Theory Order.POrderTheory Order.TotalTheory.
Local Open Scope ring_scope.

Section Examples.
  Variable R : rcfType.
  Notation Hk1 := (isT : (1 <= 2)%N).
  Lemma ex_kept : nystrom_dim (1 / 2%:R) (eigs_values Hk1 (ex_values R)) = 1%N.
  Proof.
    rewrite /nystrom_dim /kept (eq_filter (a2 := predT)) ?filter_predT ?size_enum_ord // => i.
    rewrite !mxE (ord1 i) /= -leNgt mul1r invf_le1 ?ltr0n // ler1n. by [].
  Qed.
  (** One point whose features are 0 and 1. *)
  Definition ex_features : 'M[R]_(1, 2) := ex_values R.
  Lemma ex_moment : second_moment ex_features = diag_mx (ex_values R).
  Proof.
    apply/matrixP => i j. rewrite /second_moment invr1 scale1r [LHS]mxE big_ord1 !mxE.
    by case: i j => [[|[|//]] i] [[|[|//]] j]; rewrite /= ?mul0r ?mulr0 ?mulr1.
  Qed.
  Lemma unit_moment q : q = 1%N -> second_moment (const_mx 1 : 'M[R]_(1, q)) = 1%:M.
  Proof.
    move=> ->. apply/matrixP => i j. by rewrite /second_moment invr1 scale1r [LHS]mxE big_ord1 !mxE mulr1 !ord1.
  Qed.
End Examples.
