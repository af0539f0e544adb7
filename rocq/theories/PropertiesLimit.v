(** Property theorem C184: weak and strong regularisation of least-squares support vector machines. *)
From mathcomp Require Import all_ssreflect all_algebra.
From Verif Require Import MatrixSpec LssvmM LssvmSpec LssvmMProofs LimitSpec LimitProofs StableExamples LimitExamples.
Set Implicit Arguments. Unset Strict Implicit. Unset Printing Implicit Defensive.
Import GRing.Theory Num.Theory Order.POrderTheory Order.TotalTheory.
Local Open Scope ring_scope.

(** * C184 *)

(** If the eigenvalues of the kernel matrix are at least [lam], positive, the training error is at
    most the share [(gamma / (lam + gamma))^2] of that of any constant: it vanishes with [gamma]. *)
Theorem C184_interpolates :
  forall (R : rcfType) n q (K : 'M[R]_n) (lam gamma : R) (Y : 'M[R]_(n, q)),
    at_least lam K -> 0 < lam -> (0 < n)%N -> 0 < gamma ->
    exists h b, solve_dual K gamma Y = Some (h, b) /\
      forall j c, \sum_i (Y i j - predict_dual 1 h b K i j) ^+ 2 <= (gamma / (lam + gamma)) ^+ 2 * (\sum_i (Y i j - c) ^+ 2).
Proof.
  move=> R n q K lam gamma Y L /ltW L0 N G. have [h [b [S _]]] := solve_dual_kkt (at_least_psd L L0) G N Y.
  exists h, b. split=> // j c. exact: interpolates L L0 N G S j c.
Qed.
Print Assumptions C184_interpolates.

(** With any positive kernel, the prediction at any point, of kernel values [k] with the training
    points, comes close to the mean of the targets when [gamma] is large. *)
Theorem C184_flat :
  forall (R : rcfType) n q (K : 'M[R]_n) (gamma : R) (Y : 'M[R]_(n, q)),
    psd K -> (0 < n)%N -> 0 < gamma ->
    exists h b, solve_dual K gamma Y = Some (h, b) /\
      forall p (k : 'M[R]_(p, n)) x j c,
        (predict_dual 1 h b k x j - mean Y j) ^+ 2 <=
        (\sum_a (k x a - n%:R^-1 * (\sum_r K r a)) ^+ 2) * (\sum_i (Y i j - c) ^+ 2) / gamma ^+ 2.
Proof.
  move=> R n q K gamma Y P N G. have [h [b [S _]]] := solve_dual_kkt P G N Y.
  exists h, b. split=> // p k x j c. have L : at_least 0 K by move=> u; rewrite mul0r; exact: P.
  have := flat L (lexx 0) N G S k x j c. by rewrite add0r.
Qed.
Print Assumptions C184_flat.

(** Points whose kernel values are close have predictions that are close. *)
Theorem C184_smooth :
  forall (R : rcfType) n q (K : 'M[R]_n) (gamma : R) (Y : 'M[R]_(n, q)),
    psd K -> (0 < n)%N -> 0 < gamma ->
    exists h b, solve_dual K gamma Y = Some (h, b) /\
      forall p (k : 'M[R]_(p, n)) x y j c,
        (predict_dual 1 h b k x j - predict_dual 1 h b k y j) ^+ 2 <=
        (\sum_a (k x a - k y a) ^+ 2) * (\sum_i (Y i j - c) ^+ 2) / gamma ^+ 2.
Proof.
  move=> R n q K gamma Y P N G. have [h [b [S _]]] := solve_dual_kkt P G N Y.
  exists h, b. split=> // p k x y j c. have L : at_least 0 K by move=> u; rewrite mul0r; exact: P.
  have := smooth L (lexx 0) N G S k x y j c. by rewrite add0r.
Qed.
Print Assumptions C184_smooth.

(** Some positivity is needed for the first: points that the kernel does not tell apart keep an
    error of half the squared difference of their targets, whatever [gamma]. *)
Theorem C184_needed :
  forall (R : rcfType) n q (K : 'M[R]_n) (gamma : R) (Y h : 'M[R]_(n, q)) b i r j,
    row i K = row r K -> solve_dual K gamma Y = Some (h, b) ->
    (Y i j - Y r j) ^+ 2 / 2%:R <= (Y i j - predict_dual 1 h b K i j) ^+ 2 + (Y r j - predict_dual 1 h b K r j) ^+ 2.
Proof. move=> R n q K gamma Y h b i r j E _. exact: twice. Qed.
Print Assumptions C184_needed.

Example C184_nontrivial : forall R : rcfType,
  at_least 1 (K3 R) /\ psd (K3 R) /\ solve_dual (K3 R) 1 (Y3 R) = Some (h3 R, 0) /\
  row 0 (const_mx 1 : 'M[R]_2) = row 1 (const_mx 1 : 'M[R]_2) /\
  exists h b, solve_dual (const_mx 1 : 'M[R]_2) 1 (\col_i i%:R : 'cV[R]_2) = Some (h, b).
Proof.
  move=> R. split; first exact: K3_at_least. split; first exact: K3_psd. split; first exact: solved3.
  split; [exact: same_rows | exact: solved_same].
Qed.
