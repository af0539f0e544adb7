(** Outputs of a solved principal component analysis over the sample: proofs. *)
From mathcomp Require Import all_ssreflect all_algebra.
From Verif Require Import NystromM MatrixSpec NystromMProofs KpcaM KpcaSpec KpcaMProofs LssvmM CenterM OriginSpec OriginProofs ScoresSpec.
Set Implicit Arguments. Unset Strict Implicit. Unset Printing Implicit Defensive.
Import Order.POrderTheory Order.TotalTheory GRing.Theory Num.Theory.
Local Open Scope ring_scope.

Section Order.
  Variables (R : rcfType) (n : nat) (eps : R) (k : nat) (Hk : (k <= n)%N) (s : 'rV[R]_n).
  Hypothesis up : forall i j : 'I_n, (i <= j)%N -> s 0 i <= s 0 j.
  Lemma kept_increasing (l : 'rV[R]_k) (i j : 'I_(nystrom_dim eps l)) : (i <= j)%N ->
    (tnth (in_tuple (kept eps l)) i <= tnth (in_tuple (kept eps l)) j)%N.
  Proof.
    move=> ij. have S : sorted leq [seq val z | z <- kept eps l].
    { rewrite /kept. apply: (subseq_sorted leq_trans (s2 := [seq val z | z <- enum 'I_k])).
      - apply: map_subseq. exact: filter_subseq.
      - rewrite val_enum_ord. exact: iota_sorted. }
    have Hi : (i < size (kept eps l))%N by exact: ltn_ord.
    have Hj : (j < size (kept eps l))%N by exact: ltn_ord.
    have z : 'I_k by exact: (tnth (in_tuple (kept eps l)) i).
    rewrite !(tnth_nth z) /= -!(nth_map z 0%N val) //.
    apply: (sorted_leq_nth leq_trans leqnn 0%N S) => //; by rewrite inE size_map.
  Qed.
  Lemma vals_decreasing (i j : 'I_(nystrom_dim eps (eigs_values Hk s))) : (i <= j)%N ->
    prune_values eps (eigs_values Hk s) 0 j <= prune_values eps (eigs_values Hk s) 0 i.
  Proof.
    move=> ij. rewrite !mxE. apply: up. rewrite /=. apply: leq_sub2l. rewrite ltnS. exact: kept_increasing.
  Qed.
End Order.

Section Moments.
  Variable R : rcfType.
  Lemma means_mul n p q (A : 'M[R]_(n, p)) (B : 'M[R]_(p, q)) : (ones R n)^T *m A = 0 -> (ones R n)^T *m (A *m B) = 0.
  Proof. move=> H. by rewrite mulmxA H mul0mx. Qed.
  Lemma sums_onesE n q (A : 'M[R]_(n, q)) : (forall j, \sum_i A i j = 0) <-> (ones R n)^T *m A = 0.
  Proof.
    split.
    - move=> H. apply/matrixP => i j. rewrite !mxE. rewrite -[RHS](H j). apply: eq_bigr => l _. by rewrite !mxE mul1r.
    - move=> H j. have := congr1 (fun M : 'M[R]_(1, q) => M 0 j) H. rewrite !mxE => F. rewrite -[RHS]F. apply: eq_bigr => l _. by rewrite !mxE mul1r.
  Qed.
  Lemma zero_mean n q (O : 'M[R]_(n, q)) : (ones R n)^T *m O = 0 -> forall j, component_mean O j = 0.
  Proof. move=> /sums_onesE H j. by rewrite /component_mean H mulr0. Qed.
  Lemma cov_zero n q (O : 'M[R]_(n, q)) : (ones R n)^T *m O = 0 -> covariance O = n%:R^-1 *: (O^T *m O).
  Proof.
    move=> H. apply/matrixP => i j. rewrite !mxE. congr (_ * _). apply: eq_bigr => a _. by rewrite !(zero_mean H) !subr0 mxE.
  Qed.
  Lemma diag_mul q (u v : 'rV[R]_q) : diag_mx u *m diag_mx v = diag_mx (\row_i (u 0 i * v 0 i)).
  Proof. by rewrite mulmx_diag. Qed.
  Lemma diag_sandwich n q (A : 'M[R]_(n, q)) (v : 'rV[R]_q) (c : R) :
    c *: ((A *m diag_mx v)^T *m (A *m diag_mx v)) = diag_mx v *m (c *: (A^T *m A)) *m diag_mx v.
  Proof. by rewrite trmx_mul tr_diag_mx -!mulmxA [A^T *m (A *m _)]mulmxA -scalemxAl -scalemxAr. Qed.
End Moments.

Section Dual.
  Variables (R : rcfType) (n : nat) (K : 'M[R]_n) (s : 'rV[R]_n) (V : 'M[R]_n).
  Hypothesis E : eigendecomposition K s V.
  Variables (eps : R) (k : nat) (Hk : (k <= n)%N).
  Hypothesis e0 : 0 < eps.
  Hypothesis npos : (0 < n)%N.
  Hypothesis Z : (ones R n)^T *m K = 0.
  Local Notation H := (dual_param eps Hk s V).
  Local Notation vals := (prune_values eps (eigs_values Hk s)).
  Lemma nn : n%:R != 0 :> R. Proof. by rewrite pnatr_eq0 -lt0n. Qed.
  Lemma dual_output : forward_dual H K = H *m diag_mx vals.
  Proof. exact: (param_eigen E eps Hk). Qed.
  Lemma vals_pos i : 0 < vals 0 i.
  Proof. apply: (lt_le_trans e0). exact: vals_ge. Qed.
  Theorem dual_means j : component_mean (forward_dual H K) j = 0.
  Proof. apply: zero_mean. exact: means_mul. Qed.
  Theorem dual_cov : covariance (forward_dual H K) = diag_mx (\row_i (n%:R * dual_vals eps Hk s 0 i ^+ 2)).
  Proof.
    rewrite cov_zero; last exact: means_mul. rewrite dual_output trmx_mul tr_diag_mx -mulmxA [H^T *m _]mulmxA.
    have -> : H^T *m H = 1%:M by exact: (param_orthonormal E eps Hk).
    rewrite mul1mx diag_mul. apply/matrixP => i j. rewrite !mxE. case: (i == j); last by rewrite /= !mulr0n mulr0.
    rewrite !mulr1n !expr2 !mulrA [n%:R * n%:R^-1]mulfV ?nn // mul1r. congr (_ * _). exact: mulrC.
  Qed.
  Lemma dual_latent : h_dual H (dual_vals eps Hk s) K = n%:R *: H.
  Proof.
    rewrite /h_dual -/(forward_dual H K) dual_output -mulmxA diag_mul.
    have -> : diag_mx (\row_i (vals 0 i * (map_mx (fun v => v^-1) (dual_vals eps Hk s)) 0 i)) = n%:R *: 1%:M.
    { apply/matrixP => i j. rewrite !mxE. case: (i == j); last (by rewrite /= !mulr0n mulr0); rewrite !mulr1n mulr1 invfM invrK.
      rewrite mulrCA. have /= := lt0r_neq0 (vals_pos i). rewrite !mxE => V0. by rewrite mulfV ?mulr1. }
    by rewrite -scalemxAr mulmx1.
  Qed.
  Lemma param_means : (ones R n)^T *m H = 0.
  Proof.
    have F : (ones R n)^T *m H *m diag_mx vals = 0 by rewrite -mulmxA -dual_output; exact: means_mul.
    apply/matrixP => i j. have := congr1 (fun M : 'M[R]_(1, _) => M i j) F. rewrite mul_diag_entry [in X in _ = X]mxE => /eqP.
    rewrite mulf_eq0 (negbTE (lt0r_neq0 (vals_pos j))) orbF => /eqP ->. by rewrite mxE.
  Qed.
  Theorem dual_latent_means j : component_mean (h_dual H (dual_vals eps Hk s) K) j = 0.
  Proof. apply: zero_mean. by rewrite dual_latent -scalemxAr param_means scaler0. Qed.
  Theorem dual_latent_cov : covariance (h_dual H (dual_vals eps Hk s) K) = n%:R%:M.
  Proof.
    rewrite cov_zero; last by rewrite dual_latent -scalemxAr param_means scaler0.
    rewrite dual_latent [(n%:R *: H)^T]linearZ /= -scalemxAl -scalemxAr !scalerA.
    have -> : H^T *m H = 1%:M by exact: (param_orthonormal E eps Hk).
    by rewrite mulVf ?nn // mul1r scalemx1.
  Qed.
  Lemma dual_valE i : dual_vals eps Hk s 0 i = n%:R^-1 * vals 0 i.
  Proof. by rewrite [LHS]mxE. Qed.
  Theorem dual_decreasing (i j : 'I_(nystrom_dim eps (eigs_values Hk s))) : (i <= j)%N -> dual_vals eps Hk s 0 j <= dual_vals eps Hk s 0 i.
  Proof.
    move=> ij. rewrite !dual_valE. apply: ler_wpmul2l; first by rewrite invr_ge0 ler0n.
    apply: vals_decreasing => //. exact: (proj2 (proj2 E)).
  Qed.
  Theorem dual_positive i : 0 < dual_vals eps Hk s 0 i.
  Proof. rewrite dual_valE. apply: mulr_gt0; last exact: vals_pos. by rewrite invr_gt0 ltr0n. Qed.
End Dual.

Section Primal.
  Variables (R : rcfType) (n d : nat) (Phi : 'M[R]_(n, d)) (s : 'rV[R]_d) (V : 'M[R]_d).
  Hypothesis E : eigendecomposition (second_moment Phi) s V.
  Variables (eps : R) (k : nat) (Hk : (k <= d)%N).
  Hypothesis e0 : 0 < eps.
  Hypothesis Z : (ones R n)^T *m Phi = 0.
  Local Notation U := (primal_param eps Hk s V).
  Local Notation vals := (primal_vals eps Hk s).
  Lemma pvals_pos i : 0 < vals 0 i.
  Proof. apply: (lt_le_trans e0). exact: vals_ge. Qed.
  Lemma primal_gram : n%:R^-1 *: ((Phi *m U)^T *m (Phi *m U)) = diag_mx vals.
  Proof.
    have -> : n%:R^-1 *: ((Phi *m U)^T *m (Phi *m U)) = U^T *m (second_moment Phi *m U).
    { by rewrite /second_moment trmx_mul -scalemxAl -scalemxAr !mulmxA. }
    rewrite (param_eigen E eps Hk) mulmxA. have -> : U^T *m U = 1%:M by exact: (param_orthonormal E eps Hk). by rewrite mul1mx.
  Qed.
  Theorem primal_means j : component_mean (forward_primal U vals Phi) j = 0.
  Proof. apply: zero_mean. exact: means_mul. Qed.
  Theorem primal_cov : covariance (forward_primal U vals Phi) = diag_mx (\row_i (vals 0 i ^+ 2)).
  Proof.
    rewrite cov_zero; last exact: means_mul. have -> : forward_primal U vals Phi = Phi *m U *m diag_mx (map_mx (fun v => Num.sqrt v) vals) by rewrite /forward_primal /weight mulmxA.
    rewrite diag_sandwich primal_gram !diag_mul. apply/matrixP => i j. rewrite !mxE. case: (i == j); last by rewrite /= !mulr0n.
    rewrite !mulr1n. have := pvals_pos i. rewrite !mxE => P. rewrite mulrAC -expr2 sqr_sqrtr ?expr2 //. exact: ltW.
  Qed.
  Theorem primal_latent_means j : component_mean (h_primal U vals Phi) j = 0.
  Proof. apply: zero_mean. rewrite /h_primal -mulmxA. exact: means_mul. Qed.
  Theorem primal_latent_cov : covariance (h_primal U vals Phi) = 1%:M.
  Proof.
    rewrite cov_zero; last by rewrite /h_primal -mulmxA; exact: means_mul.
    have -> : h_primal U vals Phi = Phi *m U *m diag_mx (\row_i (Num.sqrt (vals 0 i) * (vals 0 i)^-1)).
    { rewrite /h_primal /weight [Phi *m (U *m _)]mulmxA -mulmxA diag_mul. congr (_ *m diag_mx _). apply/matrixP => i j. by rewrite !mxE. }
    rewrite diag_sandwich primal_gram !diag_mul. apply/matrixP => i j. rewrite !mxE. case: (i == j); last by rewrite /= !mulr0n.
    rewrite !mulr1n. have := pvals_pos i. rewrite !mxE. move: (s _ _) => x P.
    have x0 := lt0r_neq0 P. rewrite divfK // mulrA -expr2 sqr_sqrtr ?mulfV //. exact: ltW.
  Qed.
  Theorem primal_decreasing (i j : 'I_(nystrom_dim eps (eigs_values Hk s))) : (i <= j)%N -> vals 0 j <= vals 0 i.
  Proof. move=> ij. apply: vals_decreasing => //. exact: (proj2 (proj2 E)). Qed.
End Primal.

(** Sums of centered matrices. *)
Section Centered.
  Variable R : rcfType.
  Lemma centered_kernel n (K : 'M[R]_n) : (0 < n)%N -> K^T = K -> (ones R n)^T *m center_sample K = 0.
  Proof.
    move=> Hn S. apply/sums_onesE => j. rewrite -[RHS](center_rows K j Hn). apply: eq_bigr => i _.
    by rewrite -[in LHS](center_tr S) mxE.
  Qed.
  Lemma centered_phi n d (Phi : 'M[R]_(n, d)) : (0 < n)%N -> (ones R n)^T *m center_features Phi Phi = 0.
  Proof. move=> Hn. apply/sums_onesE => j. exact: centered_sum. Qed.
End Centered.
