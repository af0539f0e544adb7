(** Property theorems C185 and C186: least-squares support vector machines with nearby kernels and
    with Nystrom features. *)
From mathcomp Require Import all_ssreflect all_algebra.
From Verif Require Import NystromM MatrixSpec NystromMProofs LssvmM LssvmMProofs LimitSpec PerturbSpec PerturbProofs SolverExamples PerturbExamples.
Set Implicit Arguments. Unset Strict Implicit. Unset Printing Implicit Defensive.
Import GRing.Theory Num.Theory Order.POrderTheory Order.TotalTheory.
Local Open Scope ring_scope.

(** * C185 *)

(** Two positive kernels whose matrices are within [beta] as operators, the same targets: the dual
    variables of the two models. *)
Theorem C185_solution :
  forall (R : rcfType) n q (K K' : 'M[R]_n) (gamma beta : R) (Y h h' : 'M[R]_(n, q)) b b',
    psd K -> psd K' -> (0 < n)%N -> 0 < gamma -> within beta K K' ->
    solve_dual K gamma Y = Some (h, b) -> solve_dual K' gamma Y = Some (h', b') ->
    forall j c, \sum_a (h a j - h' a j) ^+ 2 <= beta ^+ 2 * (\sum_i (Y i j - c) ^+ 2) / gamma ^+ 4.
Proof. move=> R n q K K' gamma beta Y h h' b b' P P' N G W S S' j c. exact: (solution_change P P' N G S S' W). Qed.
Print Assumptions C185_solution.

(** The predictions at a point of kernel values [k] and [k'] with the training points. *)
Theorem C185_predictions :
  forall (R : rcfType) n q (K K' : 'M[R]_n) (gamma beta : R) (Y h h' : 'M[R]_(n, q)) b b',
    psd K -> psd K' -> (0 < n)%N -> 0 < gamma -> within beta K K' ->
    solve_dual K gamma Y = Some (h, b) -> solve_dual K' gamma Y = Some (h', b') ->
    forall p (k k' : 'M[R]_(p, n)) x j c,
      let off L l a := l x a - n%:R^-1 * (\sum_r L r a) in
      (predict_dual 1 h b k x j - predict_dual 1 h' b' k' x j) ^+ 2 <=
      2%:R * ((\sum_a off K k a ^+ 2) * (beta ^+ 2 * (\sum_i (Y i j - c) ^+ 2) / gamma ^+ 4) +
              (\sum_a (off K k a - off K' k' a) ^+ 2) * ((\sum_i (Y i j - c) ^+ 2) / gamma ^+ 2)).
Proof.
  move=> R n q K K' gamma beta Y h h' b b' P P' N G W S S' p k k' x j c.
  exact: (prediction_change P P' N G S S' W k k' x j c).
Qed.
Print Assumptions C185_predictions.

(** Entries that differ by at most [e] make matrices within [n e]. *)
Theorem C185_entries :
  forall (R : rcfType) n (K K' : 'M[R]_n) (e : R), (forall i j, `|K i j - K' i j| <= e) -> within (n%:R * e) K K'.
Proof. move=> R n K K' e. exact: within_entries. Qed.
Print Assumptions C185_entries.

Example C185_nontrivial : forall R : rcfType,
  psd (diag_mx (ladder R)) /\
  let Phi := nystrom_sample 1 (leqnSn 1) (ladder R) 1%:M in
  psd (Phi *m Phi^T) /\ within 1 (diag_mx (ladder R)) (Phi *m Phi^T) /\
  forall Y : 'cV[R]_2, exists h b h' b', solve_dual (diag_mx (ladder R)) 1 Y = Some (h, b) /\ solve_dual (Phi *m Phi^T) 1 Y = Some (h', b').
Proof.
  move=> R. split; first exact: ladder_psd. split; first exact: outer_psd. split; last exact: ladder_solved.
  apply: (within_nystrom (ladder_decomposition R) _ ler01 ler01). exact: ladder_left.
Qed.

(** * C186 *)

(** An LS-SVM on the features of the Nystrom kernel of which every eigenvalue is kept is the one on
    the base kernel: same dual variables, same bias, same predictions at other points, of base
    kernel values [k] with the training points. *)
Theorem C186_exact :
  forall (R : rcfType) n q (K : 'M[R]_n) (s : 'rV[R]_n) (V : 'M[R]_n) (eps : R) (k : nat) (Hk : (k <= n)%N) (gamma : R) (Y : 'M[R]_(n, q)),
    eigendecomposition K s V -> 0 < eps -> (forall j, ~~ left_out s eps k j) ->
    let Phi := nystrom_sample eps Hk s V in
    solve_dual (Phi *m Phi^T) gamma Y = solve_dual K gamma Y /\
    forall (h : 'M[R]_(n, q)) b p (kx : 'M[R]_(p, n)),
      predict_dual 1 h b (nystrom_oos eps Hk s V kx *m Phi^T) = predict_dual 1 h b kx.
Proof.
  move=> R n q K s V eps k Hk gamma Y E He A Phi. split.
  - rewrite (nystrom_exact E Hk (ltW He)) // => j L. by move: (A j); rewrite L.
  - move=> h b p kx. by rewrite (nystrom_oos_exact E Hk kx He A).
Qed.
Print Assumptions C186_exact.

(** In general the dual variables move by no more than the largest eigenvalue left out allows. *)
Theorem C186_close :
  forall (R : rcfType) n q (K : 'M[R]_n) (s : 'rV[R]_n) (V : 'M[R]_n) (eps : R) (k : nat) (Hk : (k <= n)%N) (gamma beta : R) (Y h h' : 'M[R]_(n, q)) b b',
    eigendecomposition K s V -> psd K -> 0 <= eps -> (0 < n)%N -> 0 < gamma -> 0 <= beta ->
    (forall j, left_out s eps k j -> `|s 0 j| <= beta) ->
    let Phi := nystrom_sample eps Hk s V in
    solve_dual K gamma Y = Some (h, b) -> solve_dual (Phi *m Phi^T) gamma Y = Some (h', b') ->
    forall j c, \sum_a (h a j - h' a j) ^+ 2 <= beta ^+ 2 * (\sum_i (Y i j - c) ^+ 2) / gamma ^+ 4.
Proof.
  move=> R n q K s V eps k Hk gamma beta Y h h' b b' E P He N G B0 B Phi S S' j c.
  exact: (solution_change P (outer_psd Phi) N G S S' (within_nystrom E Hk He B0 B)).
Qed.
Print Assumptions C186_close.

Example C186_nontrivial : forall R : rcfType,
  eigendecomposition (diag_mx (ladder R)) (ladder R) 1%:M /\ (forall j, ~~ left_out (ladder R) 1 2 j) /\
  (forall j, left_out (ladder R) 1 1 j -> `|ladder R 0 j| <= 1) /\ left_out (ladder R) 1 1 0 /\
  let Phi := nystrom_sample 1 (leqnSn 1) (ladder R) 1%:M in
  forall Y : 'cV[R]_2, exists h b h' b', solve_dual (diag_mx (ladder R)) 1 Y = Some (h, b) /\ solve_dual (Phi *m Phi^T) 1 Y = Some (h', b').
Proof.
  move=> R. split; first exact: ladder_decomposition. split; first exact: ladder_kept. split; first exact: ladder_left.
  split; [by [] | exact: ladder_solved].
Qed.
