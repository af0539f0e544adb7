(** Property theorems C176, C177: stability of least-squares support vector machines. *)
From mathcomp Require Import all_ssreflect all_fingroup all_algebra.
From Verif Require Import MatrixSpec KpcaM KpcaSpec LssvmM LssvmSpec LssvmMonoProofs StableSpec StableProofs StableExamples.
Set Implicit Arguments. Unset Strict Implicit. Unset Printing Implicit Defensive.
Import GRing.Theory Num.Theory Order.POrderTheory Order.TotalTheory.
Local Open Scope ring_scope.

(** * C176 *)

(** When the targets change, the fitted values and the residuals together change no more than the
    targets. *)
Theorem C176_contraction :
  forall (R : rcfType) n q (K : 'M[R]_n) (gamma : R) (Y Y' h h' : 'M[R]_(n, q)) b b',
    psd K -> (0 < n)%N -> 0 < gamma ->
    solve_dual K gamma Y = Some (h, b) -> solve_dual K gamma Y' = Some (h', b') ->
    forall j,
    \sum_i (predict_dual 1 h b K i j - predict_dual 1 h' b' K i j) ^+ 2 +
    \sum_i ((Y i j - predict_dual 1 h b K i j) - (Y' i j - predict_dual 1 h' b' K i j)) ^+ 2 <= \sum_i (Y i j - Y' i j) ^+ 2.
Proof. move=> R n q K gamma Y Y' h h' b b' P N G S S' j. exact: (stable P N G S S'). Qed.
Print Assumptions C176_contraction.
(** When one target changes, the value fitted at this point moves in the same direction, by at
    least the change over the number of points and at most the change. *)
Theorem C176_leverage :
  forall (R : rcfType) n q (K : 'M[R]_n) (gamma : R) (Y Y' h h' : 'M[R]_(n, q)) b b',
    psd K -> (0 < n)%N -> 0 < gamma ->
    solve_dual K gamma Y = Some (h, b) -> solve_dual K gamma Y' = Some (h', b') ->
    forall j i, (forall r, r != i -> Y r j = Y' r j) ->
    n%:R^-1 * (Y i j - Y' i j) ^+ 2 <= (predict_dual 1 h b K i j - predict_dual 1 h' b' K i j) * (Y i j - Y' i j) <= (Y i j - Y' i j) ^+ 2.
Proof. move=> R n q K gamma Y Y' h h' b b' P N G S S' j i. exact: (leverage P N G S S'). Qed.
Print Assumptions C176_leverage.
(** The influence of a target on another point is mutual. *)
Theorem C176_mutual :
  forall (R : rcfType) n q (K : 'M[R]_n) (gamma : R) (Y Y' h h' : 'M[R]_(n, q)) b b',
    psd K -> K^T = K -> (0 < n)%N -> 0 < gamma ->
    solve_dual K gamma Y = Some (h, b) -> solve_dual K gamma Y' = Some (h', b') ->
    forall j, \sum_i predict_dual 1 h b K i j * Y' i j = \sum_i Y i j * predict_dual 1 h' b' K i j.
Proof. move=> R n q K gamma Y Y' h h' b b' P Sy N G S S' j. exact: (influence_symmetric P N G S S' j Sy). Qed.
Print Assumptions C176_mutual.
Example C176_nontrivial : forall R : rcfType,
  psd (K3 R) /\ (K3 R)^T = K3 R /\ solve_dual (K3 R) 1 (Y3 R) = Some (h3 R, 0) /\
  (exists h b, solve_dual (K3 R) 1 (Y3' R) = Some (h, b)) /\ (forall r, r != 0 -> Y3 R r 0 = Y3' R r 0) /\ Y3 R 0 0 - Y3' R 0 0 = 3%:R.
Proof.
  move=> R. split; first exact: K3_psd. split; first exact: K3_sym. split; first exact: solved3. split; first exact: solved3'.
  split; [exact: only_first | exact: first_changes].
Qed.

(** * C177 *)

(** Points whose dual variables are zero can be left out: solving without them gives the same
    dual variables for the others, the same bias and the same predictions everywhere. *)
Theorem C177_leave_out :
  forall (R : rcfType) n m q (f : 'I_m -> 'I_n) (K : 'M[R]_n) (gamma : R) (Y h : 'M[R]_(n, q)) b,
    injective f -> psd K -> (0 < n)%N -> (0 < m)%N -> 0 < gamma ->
    solve_dual K gamma Y = Some (h, b) -> (forall i, left_out f i -> forall j, h i j = 0) ->
    solve_dual (between f K) gamma (rows_of f Y) = Some (rows_of f h, b) /\
    forall (kappa : R) p (k : 'M[R]_(p, n)), predict_dual kappa (rows_of f h) b (columns_of f k) = predict_dual kappa h b k.
Proof.
  move=> R n m q f K gamma Y h b I P N M G S Z. split; first exact: (drop I P G N M S Z).
  move=> kappa p k. exact: (drop_predict I b kappa k Z).
Qed.
Print Assumptions C177_leave_out.
(** Points that the model already explains can be added: they get a zero dual variable, the
    others keep theirs, and the predictions do not change. *)
Theorem C177_add :
  forall (R : rcfType) n m q (f : 'I_m -> 'I_n) (K : 'M[R]_n) (gamma : R) (Y : 'M[R]_(n, q)) h' b,
    injective f -> psd K -> (0 < n)%N -> (0 < m)%N -> 0 < gamma ->
    solve_dual (between f K) gamma (rows_of f Y) = Some (h', b) ->
    (forall i, left_out f i -> forall j, predict_dual 1 h' b (columns_of f K) i j = Y i j) ->
    exists h, solve_dual K gamma Y = Some (h, b) /\ rows_of f h = h' /\ (forall i, left_out f i -> forall j, h i j = 0) /\
      forall (kappa : R) p (k : 'M[R]_(p, n)), predict_dual kappa h b k = predict_dual kappa h' b (columns_of f k).
Proof.
  move=> R n m q f K gamma Y h' b I P N M G S X. exists (spread f h'). split; first exact: (add_explained I P G N M S X).
  split; first exact: (spread_in I h'). split; first exact: spread_out.
  move=> kappa p k. rewrite -{2}(spread_in I h'). symmetry. exact: (drop_predict I b kappa k (@spread_out _ _ _ f _ h')).
Qed.
Print Assumptions C177_add.
Example C177_nontrivial : forall R : rcfType,
  injective firsts /\ left_out firsts ord_max /\ solve_dual (K3 R) 1 (Y3 R) = Some (h3 R, 0) /\
  (forall i, left_out firsts i -> forall j, h3 R i j = 0) /\ h3 R 0 0 = 1.
Proof.
  move=> R. split; first exact: firsts_inj. split; first exact: last_out. split; first exact: solved3.
  split; first exact: last_zero. by rewrite mxE.
Qed.
