(** Property theorem C187: the components of nearby kernels. *)
From mathcomp Require Import all_ssreflect all_algebra.
From Verif Require Import NystromM MatrixSpec NystromMProofs KpcaM KpcaSpec KpcaMore InterlaceSpec SubspaceSpec SolverExamples InterlaceProofs PerturbProofs SubspaceProofs SubspaceExamples.
Set Implicit Arguments. Unset Strict Implicit. Unset Printing Implicit Defensive.
Import GRing.Theory Num.Theory Order.POrderTheory Order.TotalTheory.
Local Open Scope ring_scope.

(** * C187 *)

(** The matrices differ by at most [f] (root of the sum of the squares); as many components are
    kept of the one as of the other, and the first matrix separates them from the others by more
    than [f].  Then the projection on the components, and with it the inner products of the outputs
    of any two points, hardly change. *)
Theorem C187_subspace :
  forall (R : rcfType) (n : nat) (K K' : 'M[R]_n) (s s' : 'rV[R]_n) (V V' : 'M[R]_n),
    eigendecomposition K s V -> eigendecomposition K' s' V' ->
    forall (eps f g : R) (k : nat) (Hk : (k <= n)%N),
      nystrom_dim eps (eigs_values Hk s') = nystrom_dim eps (eigs_values Hk s) ->
      gap (nystrom_dim eps (eigs_values Hk s)) s g -> 0 <= f -> f < g -> frobenius2 (K - K') <= f ^+ 2 ->
      let H := dual_param eps Hk s V in let H' := dual_param eps Hk s' V' in
      frobenius2 (H *m H^T - H' *m H'^T) <= (f / (g - f)) ^+ 2 /\
      forall x y : 'rV[R]_n,
        ((forward_dual H x *m (forward_dual H y)^T) 0 0 - (forward_dual H' x *m (forward_dual H' y)^T) 0 0) ^+ 2 <=
        (\sum_a x 0 a ^+ 2) * (\sum_a y 0 a ^+ 2) * (f / (g - f)) ^+ 2.
Proof.
  move=> R n K K' s s' V V' E E' eps f g k Hk Q G f0 fg F H H'.
  have B : frobenius2 (H *m H^T - H' *m H'^T) <= (f / (g - f)) ^+ 2.
    by rewrite (param_span E) (param_span E') Q; apply: (span_change E E').
  split; first exact: B. move=> x y.
  have -> : (forward_dual H x *m (forward_dual H y)^T) 0 0 - (forward_dual H' x *m (forward_dual H' y)^T) 0 0 =
            (x *m (H *m H^T - H' *m H'^T) *m y^T) 0 0.
    rewrite /forward_dual !trmx_mul !mulmxA mulmxBr mulmxBl !mulmxA.
    by move: (x *m H *m _ *m _) (x *m H' *m _ *m _) => X Y; rewrite !mxE.
  apply: le_trans (frob_bilinear _ _ _) _. apply: ler_wpmul2l; last exact: B.
  by apply: mulr_ge0; apply: sumr_ge0 => a _; exact: sqr_ge0.
Qed.
Print Assumptions C187_subspace.

(** One component, if its eigenvalue is separated from all others: up to its sign, it hardly changes,
    and neither do the outputs, also when the kernel values of the point change. *)
Theorem C187_component :
  forall (R : rcfType) (n : nat) (K K' : 'M[R]_n) (s s' : 'rV[R]_n) (V V' : 'M[R]_n),
    eigendecomposition K s V -> eigendecomposition K' s' V' ->
    forall (eps f g : R) (k : nat) (Hk : (k <= n)%N) (i : component eps Hk s) (i' : component eps Hk s') (j : 'I_n),
      i' = i :> nat -> j = (n - i.+1)%N :> nat ->
      isolated j s g -> 0 <= f -> f < g -> frobenius2 (K - K') <= f ^+ 2 ->
      exists e : R, (e = 1 \/ e = -1) /\
        \sum_a (dual_param eps Hk s' V' a i' - e * dual_param eps Hk s V a i) ^+ 2 <= (f / (g - f)) ^+ 2 /\
        forall (m : nat) (x x' : 'M[R]_(m, n)) (a : 'I_m),
          (forward_dual (dual_param eps Hk s' V') x' a i' - e * forward_dual (dual_param eps Hk s V) x a i) ^+ 2 <=
          2%:R * ((\sum_b (x' a b - x a b) ^+ 2) + (\sum_b x a b ^+ 2) * (f / (g - f)) ^+ 2).
Proof.
  move=> R n K K' s s' V V' E E' eps f g k Hk i i' j ii ij G f0 fg F.
  have [e [S B]] := component_change E E' f0 fg F G. exists e. split; first exact: S.
  have P a : dual_param eps Hk s V a i = V a j by rewrite (param_first E); congr (V a _); apply: val_inj; rewrite /= ij.
  have P' a : dual_param eps Hk s' V' a i' = V' a j by rewrite (param_first E'); congr (V' a _); apply: val_inj; rewrite /= ij ii.
  split; first by under eq_bigr => a _ do rewrite P P'.
  move=> m x x' a.
  have -> : forward_dual (dual_param eps Hk s' V') x' a i' - e * forward_dual (dual_param eps Hk s V) x a i =
            (\sum_b (x' a b - x a b) * V' b j) + \sum_b x a b * (V' b j - e * V b j).
    rewrite /forward_dual [(x' *m _) _ _]mxE [(x *m _) _ _]mxE mulr_sumr -sumrB -big_split /=. apply: eq_bigr => b _.
    by rewrite P P' mulrBl mulrBr addrA subrK mulrCA.
  apply: le_trans (two_squares _ _) _. apply: ler_wpmul2l; first exact: ler0n.
  apply: ler_add.
  - apply: le_trans (sum_schwarz _ _) _. by rewrite (unit_column j E') mulr1.
  - apply: le_trans (sum_schwarz _ _) _. apply: ler_wpmul2l; last exact: B. by apply: sumr_ge0 => b _; exact: sqr_ge0.
Qed.
Print Assumptions C187_component.

(** A change of at most [e] of each entry is a change of at most [n * e]. *)
Theorem C187_entries :
  forall (R : rcfType) (n : nat) (K K' : 'M[R]_n) (e : R), 0 <= e -> (forall a b, `|K a b - K' a b| <= e) ->
    0 <= n%:R * e /\ frobenius2 (K - K') <= (n%:R * e) ^+ 2.
Proof.
  move=> R n K K' e e0 B. split; first by rewrite mulr_ge0 ?ler0n.
  have -> : (n%:R * e) ^+ 2 = \sum_(a < n) \sum_(b < n) e ^+ 2.
    under eq_bigr => a _ do rewrite sumr_const card_ord. by rewrite sumr_const card_ord exprMn expr2 -mulrA !mulr_natl.
  apply: ler_sum => a _. apply: ler_sum => b _.
  have -> : (K - K') a b = K a b - K' a b by rewrite !mxE.
  by rewrite -real_normK ?num_real // ler_pexpn2r ?nnegrE ?normr_ge0.
Qed.
Print Assumptions C187_entries.

(** The separation is needed: however small the change, the first components of two kernels of two
    points can be orthogonal to each other. *)
Theorem C187_needed :
  forall (R : rcfType) (e : R), 0 < e ->
    exists (K K' : 'M[R]_2) (s s' : 'rV[R]_2) (V V' : 'M[R]_2) (Hk : (1 <= 2)%N),
      eigendecomposition K s V /\ eigendecomposition K' s' V' /\ (forall a b, `|K a b - K' a b| <= e) /\
      nystrom_dim 1 (eigs_values Hk s) = 1%N /\ nystrom_dim 1 (eigs_values Hk s') = 1%N /\
      (dual_param 1 Hk s V)^T *m dual_param 1 Hk s' V' = 0.
Proof.
  move=> R e e0. have P := ltW e0.
  exists (diag_mx (low e)), (diag_mx (high e)), (low e), (low e), 1%:M, (swap R), isT.
  have E := low_decomposition P. have E' := high_decomposition P.
  split; first exact: E. split; first exact: E'. split; last split; last split.
  - move=> a b. have -> : diag_mx (low e) a b - diag_mx (high e) a b = (low e 0 a - high e 0 a) *+ (a == b) by rewrite [diag_mx _ _ _]mxE [diag_mx (high e) _ _]mxE mulrnBl.
    case: eqP => _; last by rewrite mulr0n normr0.
    rewrite mulr1n !mxE. case: (a == 0); first by rewrite opprD addrA subrr sub0r normrN gtr0_norm.
    by rewrite addrC addKr gtr0_norm.
  - exact: low_kept.
  - exact: low_kept.
  - apply/matrixP => a b. rewrite [LHS]mxE [RHS]mxE big_ord_recl big_ord1 ![(_^T) _ _]mxE !(param_first E) !(param_first E') !swap_entry.
    have Z (q : nat) (L : (q <= 2)%N) (c : 'I_q) : q = 1%N -> rev_ord (widen_ord L c) = 1 :> 'I_2.
      move=> q1. apply: val_inj => /=. have := ltn_ord c. rewrite {2}q1. by case: (val c).
    rewrite !Z ?low_kept // !mxE /=. by rewrite ?mulr0 ?mul0r addr0.
Qed.
Print Assumptions C187_needed.

Example C187_nontrivial (R : rcfType) :
  eigendecomposition (diag_mx (ladder R)) (ladder R) 1%:M /\ eigendecomposition (diag_mx (tilted R)) (tilted R) 1%:M /\
  diag_mx (ladder R) != diag_mx (tilted R) /\
  nystrom_dim (1 / 2%:R) (eigs_values (isT : (1 <= 2)%N) (ladder R)) = 1%N /\
  nystrom_dim (1 / 2%:R) (eigs_values (isT : (1 <= 2)%N) (tilted R)) = 1%N /\
  gap 1 (ladder R) 1 /\ isolated 1 (ladder R) 1 /\ frobenius2 (diag_mx (ladder R) - diag_mx (tilted R)) <= (1 / 4%:R) ^+ 2 /\
  0 <= 1 / 4%:R :> R /\ 1 / 4%:R < 1 :> R.
Proof.
  split; first exact: ladder_decomposition. split; first exact: tilted_decomposition. split; last split; last split; last split; last split; last split.
  - apply/eqP => /matrixP /(_ 0 0). rewrite !mxE /= !mulr1n => /esym /eqP. rewrite -subr_eq0 addrC addKr mulf_eq0 invr_eq0 oner_eq0. by rewrite pnatr_eq0.
  - apply: one_kept. by rewrite mxE.
  - apply: one_kept. by rewrite mxE.
  - exact: ladder_gap.
  - exact: ladder_isolated.
  - exact: tilted_near.
  - by rewrite divr_ge0 ?ler0n ?ler01 // ltr_pdivr_mulr ?ltr0n // mul1r (ltr_nat _ 1 4).
Qed.
