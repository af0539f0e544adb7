(** Weak and strong regularisation: examples. *)
From mathcomp Require Import all_ssreflect all_algebra.
From Verif Require Import MatrixSpec LssvmM LssvmSpec LssvmMProofs LimitSpec LimitProofs StableExamples.
Set Implicit Arguments. Unset Strict Implicit. Unset Printing Implicit Defensive.
Import GRing.Theory Num.Theory Order.POrderTheory Order.TotalTheory.
Local Open Scope ring_scope.

Section Examples.
  Variable R : rcfType.
  Lemma K3_at_least : at_least 1 (K3 R).
  Proof. move=> c. by rewrite mul1r /qform /K3 mulmx1 mxE; apply: ler_sum => i _; rewrite [c^T _ _]mxE expr2. Qed.
  Lemma same_rows : row 0 (const_mx 1 : 'M[R]_2) = row 1 (const_mx 1 : 'M[R]_2).
  Proof. by apply/matrixP => i j; rewrite !mxE. Qed.
  Lemma const_psd : psd (const_mx 1 : 'M[R]_2).
  Proof.
    move=> c. have -> : const_mx 1 = (const_mx 1 : 'cV[R]_2) *m (const_mx 1 : 'cV[R]_2)^T.
      by apply/matrixP => i j; rewrite !mxE big_ord_recl big_ord0 !mxE mulr1 addr0.
    rewrite /qform mulmxA -mulmxA. set u := (const_mx 1)^T *m c. have -> : c^T *m const_mx 1 = u^T by rewrite /u trmx_mul trmxK.
    by rewrite mxE big_ord_recl big_ord0 addr0 [u^T _ _]mxE -expr2 sqr_ge0.
  Qed.
  Lemma solved_same : exists h b, solve_dual (const_mx 1 : 'M[R]_2) 1 (\col_i i%:R : 'cV[R]_2) = Some (h, b).
  Proof. have [h [b [E _]]] := solve_dual_kkt const_psd (@ltr01 R) (isT : (0 < 2)%N) (\col_i i%:R : 'cV[R]_2). by exists h, b. Qed.
End Examples.
