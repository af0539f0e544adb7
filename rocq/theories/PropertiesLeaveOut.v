(** Property theorems C189: least-squares support vector machines trained with and without some
    of the points. *)
From mathcomp Require Import all_ssreflect all_fingroup all_algebra.
From Verif Require Import MatrixSpec LssvmM LssvmMProofs StableSpec StableExamples LeaveOutProofs LeaveOutExamples.
Set Implicit Arguments. Unset Strict Implicit. Unset Printing Implicit Defensive.
Import GRing.Theory Num.Theory.
Local Open Scope ring_scope.

(** * C189 *)

(** The model trained without some points is no better at these points, for each output, than the
    one trained with them. *)
Theorem C189_error :
  forall (R : rcfType) n m q (f : 'I_m -> 'I_n) (K : 'M[R]_n) (gamma : R) (Y h : 'M[R]_(n, q)) b h' b',
    injective f -> psd K -> (0 < n)%N -> (0 < m)%N -> 0 < gamma ->
    solve_dual K gamma Y = Some (h, b) -> solve_dual (between f K) gamma (rows_of f Y) = Some (h', b') ->
    forall j,
    \sum_(i | i \notin codom f) (Y i j - predict_dual 1 h b K i j) ^+ 2 <=
    \sum_(i | i \notin codom f) (Y i j - predict_dual 1 h' b' (columns_of f K) i j) ^+ 2.
Proof. move=> R n m q f K gamma Y h b h' b' I P N M G S S' j. exact: (fold_error I P N M G S S' j). Qed.
Print Assumptions C189_error.

(** Adding points changes the fit at the others by no more than half the error that was made at
    the points added. *)
Theorem C189_others :
  forall (R : rcfType) n m q (f : 'I_m -> 'I_n) (K : 'M[R]_n) (gamma : R) (Y h : 'M[R]_(n, q)) b h' b',
    injective f -> psd K -> (0 < n)%N -> (0 < m)%N -> 0 < gamma ->
    solve_dual K gamma Y = Some (h, b) -> solve_dual (between f K) gamma (rows_of f Y) = Some (h', b') ->
    forall j,
    \sum_a (predict_dual 1 h b K (f a) j - predict_dual 1 h' b' (columns_of f K) (f a) j) ^+ 2 <=
    4%:R^-1 * \sum_(i | i \notin codom f) (Y i j - predict_dual 1 h' b' (columns_of f K) i j) ^+ 2.
Proof. move=> R n m q f K gamma Y h b h' b' I P N M G S S' j. exact: (fold_others I P N M G S S' j). Qed.
Print Assumptions C189_others.

(** For a single point [i], the error made when training with it is a fixed share of the one made
    when training without it: the share is positive and less than one, and does not depend on the
    targets. *)
Theorem C189_one :
  forall (R : rcfType) m (i : 'I_m.+1) (K : 'M[R]_m.+1) (gamma : R), psd K -> (0 < m)%N -> 0 < gamma ->
  exists c : R, 0 < c <= 1 - m.+1%:R^-1 /\
    forall q (Y h : 'M[R]_(m.+1, q)) b h' b',
      solve_dual K gamma Y = Some (h, b) ->
      solve_dual (between (lift i) K) gamma (rows_of (lift i) Y) = Some (h', b') ->
      forall j, Y i j - predict_dual 1 h b K i j = c * (Y i j - predict_dual 1 h' b' (columns_of (lift i) K) i j).
Proof.
  move=> R m i K gamma P M G. have [u [v [S _]]] := solve_dual_kkt P G (ltn0Sn m) (unit_target R i).
  exists (gamma * u i 0). split; first exact: (share_bounds P M G S).
  move=> q Y h b h' b' S1 S2. exact: (left_one P M G S S1 S2).
Qed.
Print Assumptions C189_one.

(** Three points of which the first is left out: the errors at this point are 1 and 3. *)
Example C189_nontrivial : forall R : rcfType,
  injective without /\ psd (K3 R) /\ solve_dual (K3 R) 1 (Y3 R) = Some (h3 R, 0) /\
  solve_dual (between without (K3 R)) 1 (rows_of without (Y3 R)) = Some (h2 R, const_mx (- 1)) /\
  0 \notin codom without /\ Y3 R 0 0 - predict_dual 1 (h3 R) 0 (K3 R) 0 0 = 1 /\
  Y3 R 0 0 - predict_dual 1 (h2 R) (const_mx (- 1)) (columns_of without (K3 R)) 0 0 = 3%:R.
Proof.
  move=> R. split; first exact: without_inj. split; first exact: K3_psd. split; first exact: solved3.
  split; first exact: solved2. split; first exact: first_out.
  rewrite predict_with predict_without mxE /=. split; first by rewrite mulr2n addrK.
  by rewrite opprK -[1]/(1%:R) -natrD.
Qed.
