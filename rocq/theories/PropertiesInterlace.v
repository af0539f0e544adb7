(** Property theorem C183: the variances of the components for some of the points, for a larger
    kernel and for a nearby kernel. *)
From mathcomp Require Import all_ssreflect all_algebra.
From Verif Require Import NystromM MatrixSpec KpcaM KpcaSpec KpcaMore StableSpec InterlaceSpec SolverExamples InterlaceProofs InterlaceExamples.
Set Implicit Arguments. Unset Strict Implicit. Unset Printing Implicit Defensive.
Import GRing.Theory Num.Theory Order.POrderTheory Order.TotalTheory.
Local Open Scope ring_scope.

(** * C183 *)

(** Dual, trained with [m] of [n] points ([f] tells which, none twice) and with all: no component is
    lost, and the variance of each one, times the number of points, only grows; it stays between
    those of the same rank and of the rank [n - m] further.  So does the explained variance. *)
Theorem C183_selection :
  forall (R : rcfType) (m n : nat) (f : 'I_m -> 'I_n) (K : 'M[R]_n) (s : 'rV[R]_n) (V : 'M[R]_n) (s' : 'rV[R]_m) (V' : 'M[R]_m),
    injective f -> eigendecomposition K s V -> eigendecomposition (between f K) s' V' ->
    forall (eps : R) (k : nat) (Hm : (k <= m)%N) (Hn : (k <= n)%N), 0 < eps ->
      let part := dual_vals eps Hm s' in let all := dual_vals eps Hn s in
      (nystrom_dim eps (eigs_values Hm s') <= nystrom_dim eps (eigs_values Hn s))%N /\
      (forall (i : component eps Hm s') (j : component eps Hn s), i = j :> nat -> m%:R * part 0 i <= n%:R * all 0 j) /\
      (forall (i : component eps Hm s') (j : component eps Hn s), j = (i + (n - m))%N :> nat -> n%:R * all 0 j <= m%:R * part 0 i) /\
      m%:R * model_variance part <= n%:R * model_variance all.
Proof.
  move=> R m n f K s V s' V' F E E' eps k Hm Hn P part all. rewrite /part /all.
  have mn : (m <= n)%N by have := leq_card f F; rewrite !card_ord.
  have B := part_below F E E' Hm Hn.
  split; first exact: dim_grows. split; last split.
  - move=> i j ij. rewrite (dual_value i E') (dual_value j E) -ij. apply: (part_ranked F E E').
    exact: leq_trans (ranked_index i) Hm.
  - move=> i j ij. rewrite (dual_value i E') (dual_value j E). apply: (part_above F E E').
    + exact: leq_trans (ranked_index i) Hm.
    + exact: leq_trans (ranked_index j) Hn.
    + by rewrite ij addnCA subnKC // addnC.
  - case: m f s' V' F E' Hm part mn B => [|m] f s' V' F E' Hm part mn B.
      by rewrite mul0r mulr_ge0 ?ler0n ?dual_variance_ge0 // ltW.
    rewrite !dual_variance ?(leq_trans _ mn) //. apply: variance_grows B _. exact: ltW.
Qed.
Print Assumptions C183_selection.

(** The same for primal: the variances of the features of [m] of [n] points. *)
Theorem C183_primal :
  forall (R : rcfType) (m n d : nat) (f : 'I_m -> 'I_n) (Phi : 'M[R]_(n, d)) (s s' : 'rV[R]_d) (V V' : 'M[R]_d),
    injective f -> (0 < m)%N ->
    eigendecomposition (second_moment Phi) s V -> eigendecomposition (second_moment (rows_of f Phi)) s' V' ->
    forall (eps : R) (k : nat) (Hk : (k <= d)%N) (i : component eps Hk s') (j : component eps Hk s), i = j :> nat ->
      m%:R * primal_vals eps Hk s' 0 i <= n%:R * primal_vals eps Hk s 0 j.
Proof.
  move=> R m n d f Phi s s' V V' F m0 E E' eps k Hk i j ij.
  have L : (i < d)%N := leq_trans (ranked_index i) Hk.
  have := larger (scaled E' (ler0n R m)) (scaled E (ler0n R n)) (leqnn d) (moment_part Phi F m0) (Ordinal L).
  by rewrite /primal_vals (prune_first E) (prune_first E') !ranked_scale -ij.
Qed.
Print Assumptions C183_primal.

(** A kernel that is larger, in the sense that the difference of the matrices is positive, has
    larger variances, in primal or in dual. *)
Theorem C183_larger :
  forall (R : rcfType) (n : nat) (K K' : 'M[R]_n) (s s' : 'rV[R]_n) (V V' : 'M[R]_n),
    eigendecomposition K s V -> eigendecomposition K' s' V' -> psd (K' - K) ->
    forall (eps : R) (k : nat) (Hk : (k <= n)%N), 0 < eps ->
      (nystrom_dim eps (eigs_values Hk s) <= nystrom_dim eps (eigs_values Hk s'))%N /\
      (forall (i : component eps Hk s) (j : component eps Hk s'), i = j :> nat -> primal_vals eps Hk s 0 i <= primal_vals eps Hk s' 0 j) /\
      (forall (i : component eps Hk s) (j : component eps Hk s'), i = j :> nat -> dual_vals eps Hk s 0 i <= dual_vals eps Hk s' 0 j) /\
      model_variance (primal_vals eps Hk s) <= model_variance (primal_vals eps Hk s').
Proof.
  move=> R n K K' s s' V V' E E' P eps k Hk e0. have B := larger E E' Hk P.
  have L : forall (i : component eps Hk s) (j : component eps Hk s'), i = j :> nat -> primal_vals eps Hk s 0 i <= primal_vals eps Hk s' 0 j.
    move=> i j ij. rewrite /primal_vals (prune_first E) (prune_first E') -ij.
    by have := B (Ordinal (ranked_index i)); rewrite !ranked_ord.
  split; first exact: dim_grows. split; first exact: L. split; last exact: variance_grows B (ltW e0).
  move=> i j ij. rewrite /dual_vals mxE [X in _ <= X]mxE. apply: ler_wpmul2l; first by rewrite invr_ge0 ler0n. exact: L.
Qed.
Print Assumptions C183_larger.

(** A change of at most [e] of each entry of the kernel matrix, whatever their number, changes no
    variance of a component that is kept in both cases by more than [e] in dual. *)
Theorem C183_stable :
  forall (R : rcfType) (n : nat) (K K' : 'M[R]_n) (s s' : 'rV[R]_n) (V V' : 'M[R]_n) (e : R),
    eigendecomposition K s V -> eigendecomposition K' s' V' -> (forall a b, `|K' a b - K a b| <= e) ->
    forall (eps : R) (k : nat) (Hk : (k <= n)%N) (i : component eps Hk s') (j : component eps Hk s), i = j :> nat ->
      `|dual_vals eps Hk s' 0 i - dual_vals eps Hk s 0 j| <= e.
Proof.
  move=> R n K K' s s' V V' e E E' B eps k Hk i j ij.
  have L : (i < n)%N := leq_trans (ranked_index i) Hk.
  have n0 : 0 < n%:R :> R by rewrite ltr0n; exact: leq_ltn_trans (leq0n i) L.
  rewrite -(ler_pmul2l n0) -{1}(gtr0_norm n0) -normrM mulrBr (dual_value i E') (dual_value j E) -ij.
  exact: (close_values E E' B L).
Qed.
Print Assumptions C183_stable.

Example C183_nontrivial (R : rcfType) :
  injective second /\ eigendecomposition (diag_mx (ladder R)) (ladder R) 1%:M /\
  eigendecomposition (between second (diag_mx (ladder R))) (const_mx 2%:R) 1%:M /\
  eigendecomposition (diag_mx (ladder R) + (1 / 2%:R) *: 1%:M) (\row_j (ladder R 0 j + 1 / 2%:R)) 1%:M /\
  (forall i j, `|(diag_mx (ladder R) + (1 / 2%:R) *: 1%:M) i j - diag_mx (ladder R) i j| <= 1 / 2%:R) /\
  psd ((diag_mx (ladder R) + (1 / 2%:R) *: 1%:M) - diag_mx (ladder R)).
Proof.
  split; first exact: second_inj. split; first exact: ladder_decomposition. split; first exact: second_decomposition.
  split; first exact: raised_decomposition. split; first exact: raised_close. exact: raised_larger.
Qed.
