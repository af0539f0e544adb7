(** Nearby kernels: examples. *)
From mathcomp Require Import all_ssreflect all_algebra.
From Verif Require Import NystromM MatrixSpec NystromMProofs LssvmM LssvmMProofs LimitSpec PerturbSpec PerturbProofs SolverExamples.
Set Implicit Arguments. Unset Strict Implicit. Unset Printing Implicit Defensive.
Import GRing.Theory Num.Theory Order.POrderTheory Order.TotalTheory.
Local Open Scope ring_scope.

Section Examples.
  Variable R : rcfType.
  (** The matrix with eigenvalues 1 and 2, of which the first is left out. *)
  Lemma ladder_psd : psd (diag_mx (ladder R)).
  Proof.
    apply: (spectrum_psd (ladder_decomposition R)) => j. rewrite mxE. by case: ifP => _; rewrite ?ler01 ?ler0n.
  Qed.
  Lemma ladder_left j : left_out (ladder R) 1 1 j -> `|ladder R 0 j| <= 1.
  Proof.
    rewrite /left_out !mxE. case: j => [[|[|//]] i] /=; first by rewrite normr1.
    by rewrite (ltr_nat _ 2 1).
  Qed.
  Lemma ladder_solved (Y : 'cV[R]_2) : exists h b h' b',
    solve_dual (diag_mx (ladder R)) 1 Y = Some (h, b) /\
    solve_dual (nystrom_sample 1 (leqnSn 1) (ladder R) 1%:M *m (nystrom_sample 1 (leqnSn 1) (ladder R) 1%:M)^T) 1 Y = Some (h', b').
  Proof.
    have [h [b [E _]]] := solve_dual_kkt ladder_psd (@ltr01 R) (isT : (0 < 2)%N) Y.
    have [h' [b' [E' _]]] := solve_dual_kkt (outer_psd (nystrom_sample 1 (leqnSn 1) (ladder R) 1%:M)) (@ltr01 R) (isT : (0 < 2)%N) Y.
    by exists h, b, h', b'.
  Qed.
  Lemma ladder_kept j : ~~ left_out (ladder R) 1 2 j.
  Proof. rewrite /left_out subnn ltn0 /= mxE -leNgt. by case: ifP => _; rewrite ?lexx // (ler_nat _ 1 2). Qed.
End Examples.
