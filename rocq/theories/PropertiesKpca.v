(** Property theorems C54-C56, C108, C109: kernel principal components. *)
From mathcomp Require Import all_ssreflect all_algebra.
From Verif Require Import NystromM MatrixSpec NystromMProofs KpcaM KpcaSpec KpcaMProofs.
Set Implicit Arguments. Unset Strict Implicit. Unset Printing Implicit Defensive.
Import GRing.Theory Num.Theory.
Local Open Scope ring_scope.

(** * C54 *)

(** In primal, for any number of components of any non-zero second moment. *)
Theorem C54_primal_partial :
  forall (R : rcfType) (n d : nat) (Phi : 'M[R]_(n, d)) (s : 'rV[R]_d) (V : 'M[R]_d) (eps : R) (k : nat) (Hk : (k <= d)%N),
    eigendecomposition (second_moment Phi) s V -> 0 < \tr (second_moment Phi) ->
    0 <= relative_variance (second_moment Phi) (primal_vals eps Hk s) <= 1.
Proof. by move=> R n d Phi s V eps k Hk E; exact: (relative_between E eps Hk (second_moment_psd Phi)). Qed.
Print Assumptions C54_primal_partial.
Theorem C54_primal_all_partial :
  forall (R : rcfType) (n : nat) (M : 'M[R]_n) (s : 'rV[R]_n) (V : 'M[R]_n), eigendecomposition M s V ->
  forall (eps : R) (k : nat) (Hk : (k <= n)%N), 0 < \tr M ->
    (forall j : 'I_n, (j < n - k)%N || (s 0 j < eps) -> s 0 j = 0) ->
    relative_variance M (primal_vals eps Hk s) = 1.
Proof. exact relative_one. Qed.
Print Assumptions C54_primal_all_partial.
(** What is missing is the share of the components left out. *)
Theorem C54_primal_exact_partial :
  forall (R : rcfType) (n : nat) (M : 'M[R]_n) (s : 'rV[R]_n) (V : 'M[R]_n), eigendecomposition M s V ->
  forall (eps : R) (k : nat) (Hk : (k <= n)%N), 0 < \tr M ->
    relative_variance M (primal_vals eps Hk s) = 1 - (\sum_(j < n | (j < n - k)%N || (s 0 j < eps)) s 0 j) / \tr M.
Proof. exact relative_exact. Qed.
Print Assumptions C54_primal_exact_partial.

(** In dual it never exceeds one over the number of points, even with all components. *)
Theorem C54_dual_refuted :
  forall (R : rcfType) (n : nat) (K : 'M[R]_n) (s : 'rV[R]_n) (V : 'M[R]_n), eigendecomposition K s V ->
  forall (eps : R) (k : nat) (Hk : (k <= n)%N), (1 < n)%N -> psd K -> 0 < \tr K ->
    0 <= relative_variance K (dual_vals eps Hk s) <= n%:R^-1 /\ relative_variance K (dual_vals eps Hk s) < 1.
Proof. exact dual_relative_below. Qed.
Print Assumptions C54_dual_refuted.
Theorem C54_dual_all :
  forall (R : rcfType) (n : nat) (K : 'M[R]_n) (s : 'rV[R]_n) (V : 'M[R]_n), eigendecomposition K s V ->
  forall (eps : R) (k : nat) (Hk : (k <= n)%N), 0 < \tr K ->
    (forall j : 'I_n, (j < n - k)%N || (s 0 j < eps) -> s 0 j = 0) ->
    relative_variance K (dual_vals eps Hk s) = n%:R^-1.
Proof. exact dual_relative_all. Qed.
Print Assumptions C54_dual_all.

Example C54_nontrivial (R : rcfType) :
  exists (K : 'M[R]_2) (s : 'rV[R]_2) (V : 'M[R]_2) (eps : R), eigendecomposition K s V /\ psd K /\ 0 < \tr K /\ 0 < eps /\
    (forall j : 'I_2, (j < 2 - 2)%N || (s 0 j < eps) -> s 0 j = 0).
Proof.
exists (diag_mx (ex_values R)), (ex_values R), 1%:M, (1 / 2%:R).
split; first exact: ex_decomposition. split.
  apply: (spectrum_psd (ex_decomposition R)) => j. by rewrite mxE ler0n.
split; last by split; [exact: ex_positive|exact: ex_left_out].
rewrite mxtrace_diag big_ord_recl big_ord1 !mxE add0r. exact: ltr01.
Qed.

(** * C55 *)

(** The loss is the squared distance between the features and their orthogonal projection
    on the components (mean over the points in primal, sum in dual); in dual the
    components span coefficients of the points. *)
Theorem C55_primal :
  forall (R : rcfType) (n d : nat) (Phi : 'M[R]_(n, d)) (q : nat) (U : 'M[R]_(d, q)), orthonormal U ->
    exists P, projects_on U P /\ loss (second_moment Phi) U = n%:R^-1 * frobenius2 (Phi - Phi *m P) /\
      0 <= loss (second_moment Phi) U.
Proof. exact loss_primal_error. Qed.
Print Assumptions C55_primal.
Theorem C55_dual :
  forall (R : rcfType) (n d : nat) (Phi : 'M[R]_(n, d)) (q : nat) (H : 'M[R]_(n, q)), orthonormal H ->
    exists P, projects_on H P /\ loss (Phi *m Phi^T) H = frobenius2 (Phi - P *m Phi) /\ 0 <= loss (Phi *m Phi^T) H.
Proof. exact loss_dual_error. Qed.
Print Assumptions C55_dual.
(** The components found by solving are orthonormal. *)
Theorem C55_solved :
  forall (R : rcfType) (n : nat) (M : 'M[R]_n) (s : 'rV[R]_n) (V : 'M[R]_n), eigendecomposition M s V ->
  forall (eps : R) (k : nat) (Hk : (k <= n)%N),
    orthonormal (primal_param eps Hk s V) /\ orthonormal (dual_param eps Hk s V).
Proof. by move=> R n M s V E eps k Hk; split; exact: (param_orthonormal E eps Hk). Qed.
Print Assumptions C55_solved.

Example C55_nontrivial (R : rcfType) :
  orthonormal (row_mx 1%:M 0 : 'M[R]_(1, 1 + 1))^T /\ ~ orthonormal (2%:R%:M : 'M[R]_1).
Proof.
split.
  by rewrite /orthonormal trmxK tr_row_mx mul_row_col trmx1 mulmx1 mul0mx addr0.
move=> H. have := congr1 (fun M : 'M[R]_1 => M 0 0) H. rewrite mxE big_ord1 !mxE eqxx !mulr1n -natrM => /eqP.
by rewrite -[1]/(1%:R) eqr_nat.
Qed.

(** * C56 *)

Theorem C56_primal_partial :
  forall (R : rcfType) (d : nat) (M : 'M[R]_d) (s : 'rV[R]_d) (V : 'M[R]_d) (eps : R) (k : nat) (Hk : (k <= d)%N),
    eigendecomposition M s V -> 0 < eps ->
    exists P, projects_on (primal_param eps Hk s V) P /\ forall m (phi : 'M[R]_(m, d)),
      phi_map (primal_param eps Hk s V) (primal_vals eps Hk s)
        (h_primal (primal_param eps Hk s V) (primal_vals eps Hk s) phi) = phi *m P.
Proof. exact primal_projection. Qed.
Print Assumptions C56_primal_partial.
Theorem C56_primal_sample_partial :
  forall (R : rcfType) (n d : nat) (Phi : 'M[R]_(n, d)), (0 < n)%N ->
  forall (s : 'rV[R]_d) (V : 'M[R]_d) (eps : R) (k : nat) (Hk : (k <= d)%N),
    eigendecomposition (second_moment Phi) s V -> 0 < eps ->
    (forall j : 'I_d, (j < d - k)%N || (s 0 j < eps) -> s 0 j = 0) ->
    phi_map (primal_param eps Hk s V) (primal_vals eps Hk s)
      (h_primal (primal_param eps Hk s V) (primal_vals eps Hk s) Phi) = Phi.
Proof. exact primal_identity. Qed.
Print Assumptions C56_primal_sample_partial.

(** In dual the result is the projection times the number of points. *)
Theorem C56_dual_scaled :
  forall (R : rcfType) (n : nat) (K : 'M[R]_n) (s : 'rV[R]_n) (V : 'M[R]_n), eigendecomposition K s V ->
  forall (eps : R) (k : nat) (Hk : (k <= n)%N) (m : nat) (x : 'M[R]_(m, n)), (0 < n)%N -> 0 < eps ->
    k_map K (dual_param eps Hk s V) (h_dual (dual_param eps Hk s V) (dual_vals eps Hk s) x) =
    n%:R *: (x *m (dual_param eps Hk s V *m (dual_param eps Hk s V)^T)).
Proof. exact dual_back. Qed.
Print Assumptions C56_dual_scaled.
Theorem C56_dual_refuted :
  forall (R : rcfType) (n : nat) (K : 'M[R]_n) (s : 'rV[R]_n) (V : 'M[R]_n), eigendecomposition K s V ->
  forall (eps : R) (k : nat) (Hk : (k <= n)%N), (1 < n)%N -> forall (m : nat) (x : 'M[R]_(m, n)), 0 < eps ->
    let P := dual_param eps Hk s V *m (dual_param eps Hk s V)^T in
    x *m P != 0 -> k_map K (dual_param eps Hk s V) (h_dual (dual_param eps Hk s V) (dual_vals eps Hk s) x) != x *m P.
Proof. exact dual_not_projection. Qed.
Print Assumptions C56_dual_refuted.
Theorem C56_dual_sample_refuted :
  forall (R : rcfType) (n : nat) (K : 'M[R]_n) (s : 'rV[R]_n) (V : 'M[R]_n), eigendecomposition K s V ->
  forall (eps : R) (k : nat) (Hk : (k <= n)%N), (1 < n)%N -> 0 < eps ->
    (forall j : 'I_n, (j < n - k)%N || (s 0 j < eps) -> s 0 j = 0) ->
    k_map K (dual_param eps Hk s V) (h_dual (dual_param eps Hk s V) (dual_vals eps Hk s) K) = n%:R *: K.
Proof. exact dual_sample. Qed.
Print Assumptions C56_dual_sample_refuted.

Example C56_nontrivial (R : rcfType) :
  exists (K : 'M[R]_2) (s : 'rV[R]_2) (V : 'M[R]_2) (eps : R), eigendecomposition K s V /\ 0 < eps /\ K != 0 /\
    (forall j : 'I_2, (j < 2 - 2)%N || (s 0 j < eps) -> s 0 j = 0).
Proof.
exists (diag_mx (ex_values R)), (ex_values R), 1%:M, (1 / 2%:R).
split; first exact: ex_decomposition. split; first exact: ex_positive. split; last exact: ex_left_out.
apply/eqP => H. have := congr1 (fun M : 'M[R]_2 => M (lift ord0 ord0) (lift ord0 ord0)) H.
rewrite !mxE eqxx mulr1n => /eqP. by rewrite oner_eq0.
Qed.

(** * C108 *)

(** From the dual solution, orthonormal components of the second moment, with the
    eigenvalues of the dual solution. *)
Theorem C108_same_spectrum :
  forall (R : rcfType) (n d : nat) (Phi : 'M[R]_(n, d))
    (s : 'rV[R]_n) (V : 'M[R]_n) (eps : R) (k : nat) (Hk : (k <= n)%N),
    eigendecomposition (Phi *m Phi^T) s V -> 0 < eps ->
    exists U : 'M[R]_(d, _), orthonormal U /\ second_moment Phi *m U = U *m diag_mx (dual_vals eps Hk s) /\
      U = Phi^T *m dual_param eps Hk s V *m diag_mx (map_mx (fun v => (Num.sqrt v)^-1) (prune_values eps (eigs_values Hk s))).
Proof. exact same_components. Qed.
Print Assumptions C108_same_spectrum.

Example C108_nontrivial (R : rcfType) :
  exists (Phi : 'M[R]_2) (s : 'rV[R]_2) (V : 'M[R]_2) (eps : R), eigendecomposition (Phi *m Phi^T) s V /\ 0 < eps /\ exists j, eps <= s 0 j.
Proof.
exists (diag_mx (ex_values R)), (ex_values R), 1%:M, (1 / 2%:R). split.
  have -> : diag_mx (ex_values R) *m (diag_mx (ex_values R))^T = diag_mx (ex_values R); last exact: ex_decomposition.
  rewrite tr_diag_mx mulmx_diag. congr diag_mx. apply/rowP => j. rewrite !mxE -natrM. by case: j => [[|[|m]] Hm].
split; first exact: ex_positive. exists (lift ord0 ord0). rewrite mxE div1r. by rewrite invf_le1 ?ler1n ?ltr0n.
Qed.

(** * C109 *)

(** The outputs of the two representations differ by the square root of the number of
    points. *)
Theorem C109_scaled :
  forall (R : rcfType) (n d : nat) (Phi : 'M[R]_(n, d))
    (s : 'rV[R]_n) (V : 'M[R]_n) (eps : R) (k : nat) (Hk : (k <= n)%N), 0 < eps ->
  forall (m : nat) (phi : 'M[R]_(m, d)),
    let U := Phi^T *m dual_param eps Hk s V *m diag_mx (map_mx (fun v => (Num.sqrt v)^-1) (prune_values eps (eigs_values Hk s))) in
    forward_primal U (dual_vals eps Hk s) phi =
    (Num.sqrt n%:R)^-1 *: forward_dual (dual_param eps Hk s V) (phi *m Phi^T).
Proof. exact forward_scaled. Qed.
Print Assumptions C109_scaled.
Theorem C109_outputs_refuted :
  forall (R : rcfType) (n d : nat) (Phi : 'M[R]_(n, d)), (1 < n)%N ->
  forall (s : 'rV[R]_n) (V : 'M[R]_n) (eps : R) (k : nat) (Hk : (k <= n)%N), 0 < eps ->
  forall (m : nat) (phi : 'M[R]_(m, d)), forward_dual (dual_param eps Hk s V) (phi *m Phi^T) != 0 ->
    let U := Phi^T *m dual_param eps Hk s V *m diag_mx (map_mx (fun v => (Num.sqrt v)^-1) (prune_values eps (eigs_values Hk s))) in
    forward_primal U (dual_vals eps Hk s) phi != forward_dual (dual_param eps Hk s V) (phi *m Phi^T).
Proof. exact outputs_differ. Qed.
Print Assumptions C109_outputs_refuted.

(** Two points with orthonormal features: the hypotheses are met, and the outputs are not zero. *)
Example C109_nontrivial (R : rcfType) :
  let Phi : 'M[R]_2 := 1%:M in
  eigendecomposition (Phi *m Phi^T) (const_mx 1) 1%:M /\ 0 < (2%:R^-1 : R) /\
  forward_dual (dual_param (2%:R^-1) (leqnn 2) (const_mx 1) (1%:M : 'M[R]_2)) ((1%:M : 'M[R]_2) *m Phi^T) != 0.
Proof.
set Phi := 1%:M. have P : Phi *m Phi^T = 1%:M :> 'M[R]_2 by rewrite /Phi trmx1 mulmx1.
split; [|split].
- rewrite P. split; first by rewrite trmx1 mulmx1. split; last by move=> i j _; rewrite !mxE.
  rewrite mul1mx mul1mx. apply/matrixP => i j. by rewrite !mxE.
- by rewrite invr_gt0 ltr0n.
- rewrite /forward_dual /Phi trmx1 mulmx1 mul1mx /dual_param. set l := eigs_values _ _. set D := prune_vectors _ _ _.
  have Z : (0 < nystrom_dim (2%:R^-1) l)%N.
    rewrite /nystrom_dim /kept size_filter -has_count. apply/hasP. exists ord0; first by rewrite mem_enum.
    by rewrite /l !mxE -Order.TotalTheory.leNgt invf_le1 ?ltr0n // ler1n.
  pose i : 'I_(nystrom_dim (2%:R^-1) l) := Ordinal Z. pose a := top (leqnn 2) (tnth (in_tuple (kept (2%:R^-1) l)) i).
  apply/eqP => E. have := congr1 (fun M : 'M[R]_(2, nystrom_dim (2%:R^-1) l) => M a i) E.
  rewrite /D !mxE eqxx => /eqP. by rewrite oner_eq0.
Qed.
