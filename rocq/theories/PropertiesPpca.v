(** Probabilistic principal components (C208-C211). *)
From mathcomp Require Import all_ssreflect all_algebra.
From Verif Require Import NystromM MatrixSpec KpcaM KpcaSpec GenerateProofs PpcaM PpcaSpec PpcaProofs PpcaExamples.
Set Implicit Arguments. Unset Strict Implicit. Unset Printing Implicit Defensive.
Import GRing.Theory Num.Theory Order.POrderTheory Order.TotalTheory.
Local Open Scope ring_scope.

(** C208. *)
Theorem C208_kept_variances (R : rcfType) n (K : 'M[R]_n) s V (E : eigendecomposition K s V) q (Hq : (q <= n)%N) H :
  (0 < n)%N -> ppca_dual K Hq s V = Some H ->
  H^T *m K *m H + ppca_noise n K (eigs_values Hq s) ^+ 2 *: 1%:M = n%:R^-1 *: diag_mx (eigs_values Hq s).
Proof. move=> N. exact: (dual_variances E). Qed.
Print Assumptions C208_kept_variances.
Theorem C208_noise_is_mean_of_left_out (R : rcfType) n (K : 'M[R]_n) s V (E : eigendecomposition K s V) q (Hq : (q <= n)%N) :
  (n%:R - q%:R) * ppca_noise n K (eigs_values Hq s) = n%:R^-1 * left_out_sum s q.
Proof. exact: (noise_mean E). Qed.
Print Assumptions C208_noise_is_mean_of_left_out.
Theorem C208_total_variance_exactly (R : rcfType) n (K : 'M[R]_n) s V (E : eigendecomposition K s V) q (Hq : (q <= n)%N) H :
  (0 < n)%N -> ppca_dual K Hq s V = Some H -> (q < n)%N ->
  (\tr (H^T *m K *m H) + n%:R * ppca_noise n K (eigs_values Hq s) ^+ 2 = n%:R^-1 * \tr K <->
   ppca_noise n K (eigs_values Hq s) = 0 \/ ppca_noise n K (eigs_values Hq s) = 1).
Proof. move=> N S. exact: (dual_total E). Qed.
Print Assumptions C208_total_variance_exactly.
Theorem C208_primal_exactly (R : rcfType) n d (Phi : 'M[R]_(n, d)) s V (E : eigendecomposition (second_moment Phi) s V)
    q (Hq : (q <= d)%N) W :
  (0 < n)%N -> ppca_primal Phi Hq s V = Some W ->
  (W^T *m W + ppca_noise n (second_moment Phi) (eigs_values Hq s) ^+ 2 *: 1%:M = diag_mx (eigs_values Hq s) <->
   n = 1%N \/ forall i, eigs_values Hq s 0 i = 0).
Proof. move=> N. exact: (primal_right E). Qed.
Print Assumptions C208_primal_exactly.
Theorem C208_total_variance_refuted (R : rcfType) :
  exists (K : 'M[R]_2) s V (Hq : (1 <= 2)%N) H, psd K /\ eigendecomposition K s V /\ ppca_dual K Hq s V = Some H /\
    \tr (H^T *m K *m H) + 2%:R * ppca_noise 2 K (eigs_values Hq s) ^+ 2 <> 2%:R^-1 * \tr K.
Proof.
  have Hq : (1 <= 2)%N by []. have [H S] := solved2 R Hq.
  exists 1%:M, (ones2 R), 1%:M, Hq, H. split; first exact: psd2. split; first exact: decomposition2. split=> // T.
  have := (@C208_total_variance_exactly R 2 _ _ _ (decomposition2 R) 1 Hq H isT S isT).1 T. rewrite noise2.
  case=> [/eqP | H1]; first by rewrite invr_eq0 pnatr_eq0. by have := half_lt1 R; rewrite H1 ltxx.
Qed.
Print Assumptions C208_total_variance_refuted.
Theorem C208_primal_refuted (R : rcfType) :
  exists (Phi : 'M[R]_2) s V (Hq : (2 <= 2)%N) W, eigendecomposition (second_moment Phi) s V /\ ppca_primal Phi Hq s V = Some W /\
    W^T *m W + ppca_noise 2 (second_moment Phi) (eigs_values Hq s) ^+ 2 *: 1%:M <> diag_mx (eigs_values Hq s).
Proof.
  have Hq : (2 <= 2)%N by []. have [W S] := primal2 R Hq.
  exists 1%:M, (halves2 R), 1%:M, Hq, W. split; first exact: decomposition2'. split=> // T.
  have := (@C208_primal_exactly R 2 2 _ _ _ (decomposition2' R) 2 Hq W isT S).1 T.
  by case=> // /(_ 0) /eqP; rewrite !mxE invr_eq0 pnatr_eq0.
Qed.
Print Assumptions C208_primal_refuted.
Example C208_nontrivial (R : rcfType) : eigendecomposition (1%:M : 'M[R]_2) (ones2 R) 1%:M /\
  (exists H, ppca_dual (1%:M : 'M[R]_2) (isT : (1 <= 2)%N) (ones2 R) 1%:M = Some H) /\
  ppca_noise 2 (1%:M : 'M[R]_2) (eigs_values (isT : (1 <= 2)%N) (ones2 R)) = 2%:R^-1.
Proof. split; first exact: decomposition2. split; [exact: solved2 | exact: noise2]. Qed.

(** C209. *)
Theorem C209_solvable_exactly (R : rcfType) n (K : 'M[R]_n) s V (E : eigendecomposition K s V) q (Hq : (q <= n)%N) :
  (0 < n)%N -> psd K ->
  ((exists H, ppca_dual K Hq s V = Some H) <->
   forall i, 0 < eigs_values Hq s 0 i /\ n%:R * ppca_noise n K (eigs_values Hq s) ^+ 2 <= eigs_values Hq s 0 i).
Proof. exact: (dual_exactly E). Qed.
Print Assumptions C209_solvable_exactly.
Theorem C209_small_noise (R : rcfType) n (K : 'M[R]_n) s V (E : eigendecomposition K s V) q (Hq : (q <= n)%N) :
  (0 < n)%N -> psd K -> (forall i, 0 < eigs_values Hq s 0 i) -> ppca_noise n K (eigs_values Hq s) <= 1 ->
  exists H, ppca_dual K Hq s V = Some H.
Proof. exact: (dual_small E). Qed.
Print Assumptions C209_small_noise.
Theorem C209_units_exactly (R : rcfType) n (K : 'M[R]_n) s V t (E : eigendecomposition K s V) q (Hq : (q <= n)%N) :
  0 < t -> (0 < n)%N -> psd K ->
  eigendecomposition (t *: K) (t *: s) V /\
  ((exists H, ppca_dual (t *: K) Hq (t *: s) V = Some H) <->
   forall i, 0 < eigs_values Hq s 0 i /\ t * (n%:R * ppca_noise n K (eigs_values Hq s) ^+ 2) <= eigs_values Hq s 0 i).
Proof. move=> T N P. split; [exact: (scaled_decomposition E T) | exact: (scaled_exactly E T)]. Qed.
Print Assumptions C209_units_exactly.
Theorem C209_every_unit_refuted (R : rcfType) :
  exists (K : 'M[R]_2) s V (Hq : (1 <= 2)%N), psd K /\ eigendecomposition K s V /\ (exists H, ppca_dual K Hq s V = Some H) /\
    forall t, 2%:R < t -> eigendecomposition (t *: K) (t *: s) V /\ ppca_dual (t *: K) Hq (t *: s) V = None.
Proof.
  have Hq : (1 <= 2)%N by []. exists 1%:M, (ones2 R), 1%:M, Hq.
  split; first exact: psd2. split; first exact: decomposition2. split; first exact: solved2.
  move=> t T. have tp : 0 < t by apply: lt_trans T; rewrite ltr0n.
  have [D X] := @C209_units_exactly R 2 _ _ _ t (decomposition2 R) 1 Hq tp isT (@psd2 R). split=> //.
  case D2 : (ppca_dual _ _ _ _) => [H|] //. exfalso.
  have [_] := X.1 (ex_intro _ H D2) 0. rewrite noise2 !mxE expr2 mulrA mulfV ?pnatr_eq0 // mul1r ler_pdivr_mulr ?ltr0n // mul1r => L.
  by move: T; rewrite ltNge L.
Qed.
Print Assumptions C209_every_unit_refuted.
Example C209_nontrivial (R : rcfType) : psd (1%:M : 'M[R]_2) /\ eigendecomposition (1%:M : 'M[R]_2) (ones2 R) 1%:M /\
  (exists H, ppca_dual (1%:M : 'M[R]_2) (isT : (1 <= 2)%N) (ones2 R) 1%:M = Some H).
Proof. split; first exact: psd2. split; [exact: decomposition2 | exact: solved2]. Qed.

(** C210. *)
Theorem C210_most_likely_dual (R : rcfType) n d (Phi : 'M[R]_(n, d)) s V
    (E : eigendecomposition (Phi *m Phi^T) s V) q (Hq : (q <= n)%N) H m (phi : 'M[R]_(m, d)) h :
  (0 < n)%N -> ppca_dual (Phi *m Phi^T) Hq s V = Some H ->
  let sigma := ppca_noise n (Phi *m Phi^T) (eigs_values Hq s) in
  let best := ppca_h_dual H (eigs_values Hq s) (phi *m Phi^T) in
  unlikeliness sigma (Phi^T *m H) phi best <= unlikeliness sigma (Phi^T *m H) phi h /\
  (sigma != 0 -> unlikeliness sigma (Phi^T *m H) phi h <= unlikeliness sigma (Phi^T *m H) phi best -> h = best).
Proof.
  move=> N S sigma best. have [Nv _] := dual_parts S.
  have G := dual_variances E S. rewrite -dual_weight_gram in G.
  have Q := likely_equation phi N Nv G. rewrite /= -dual_h_weight -/best -/sigma in Q.
  split; [exact: likely_best | by move=> S0; exact: likely_only].
Qed.
Print Assumptions C210_most_likely_dual.
Theorem C210_most_likely_primal (R : rcfType) n d (Phi : 'M[R]_(n, d)) s V
    (E : eigendecomposition (second_moment Phi) s V) q (Hq : (q <= d)%N) W m (phi : 'M[R]_(m, d)) (mu : 'rV[R]_d) h :
  (0 < n)%N -> ppca_primal Phi Hq s V = Some W -> (forall i, eigs_values Hq s 0 i != 0) ->
  let sigma := ppca_noise n (second_moment Phi) (eigs_values Hq s) in
  let best := ppca_h_primal n mu W (eigs_values Hq s) phi in
  let centred := phi - \matrix_(i, j) mu 0 j in
  unlikeliness sigma W centred best <= unlikeliness sigma W centred h /\
  (sigma != 0 -> unlikeliness sigma W centred h <= unlikeliness sigma W centred best -> h = best).
Proof.
  move=> N S Nv sigma best centred. have G := primal_variances E S.
  have Q := likely_equation centred N Nv G.
  split; [exact: likely_best | by move=> S0; exact: likely_only].
Qed.
Print Assumptions C210_most_likely_primal.
Theorem C210_reconstructions_agree (R : rcfType) n d (Phi : 'M[R]_(n, d)) q (H : 'M[R]_(n, q)) m (h : 'M[R]_(m, q)) :
  ppca_k_map (Phi *m Phi^T) H h = ppca_phi_map (Phi^T *m H) h *m Phi^T.
Proof. exact: k_map_phi. Qed.
Print Assumptions C210_reconstructions_agree.
Example C210_nontrivial (R : rcfType) :
  eigendecomposition ((1%:M : 'M[R]_2) *m 1%:M^T) (ones2 R) 1%:M /\
  (exists H, ppca_dual ((1%:M : 'M[R]_2) *m 1%:M^T) (isT : (1 <= 2)%N) (ones2 R) 1%:M = Some H) /\
  ppca_noise 2 ((1%:M : 'M[R]_2) *m 1%:M^T) (eigs_values (isT : (1 <= 2)%N) (ones2 R)) != 0 /\
  eigendecomposition (second_moment (1%:M : 'M[R]_2)) (halves2 R) 1%:M /\
  (exists W, ppca_primal (1%:M : 'M[R]_2) (isT : (2 <= 2)%N) (halves2 R) 1%:M = Some W) /\
  (forall i, eigs_values (isT : (2 <= 2)%N) (halves2 R) 0 i != 0).
Proof.
  rewrite trmx1 mulmx1. split; first exact: decomposition2. split; first exact: solved2.
  split; first by rewrite noise2 invr_eq0 pnatr_eq0. split; first exact: decomposition2'. split; first exact: primal2.
  by move=> i; rewrite !mxE invr_eq0 pnatr_eq0.
Qed.

(** C211. *)
Theorem C211_draws_exactly (R : rcfType) d q (W : 'M[R]_(d, q)) noise L num (u : 'M[R]_(num, d)) :
  cholesky (ppca_covariance W noise) L -> second_moment u = 1%:M ->
  (second_moment (ppca_draw L u) = ppca_covariance W noise <-> diagonal (ppca_covariance W noise)).
Proof. move=> C U. rewrite (draw_moment L U). exact: draw_right. Qed.
Print Assumptions C211_draws_exactly.
Theorem C211_draws_refuted (R : rcfType) :
  exists (W : 'cV[R]_2) noise (L u : 'M[R]_2), cholesky (ppca_covariance W noise) L /\ second_moment u = 1%:M /\
    second_moment (ppca_draw L u) <> ppca_covariance W noise.
Proof.
  exists (Wc R), 15%:R, (Lc R), (uc R). have C := cholesky_c R. have U := moment_c R. split=> //. split=> // X.
  exact: (correlated_c ((C211_draws_exactly C U).1 X)).
Qed.
Print Assumptions C211_draws_refuted.
Theorem C211_drawn_from_latent (R : rcfType) d q (W : 'M[R]_(d, q)) num (h : 'M[R]_(num, q)) :
  second_moment h = 1%:M -> second_moment (ppca_phi_map W h) = ppca_covariance W 0.
Proof. move=> U. by rewrite /ppca_phi_map moment_mul U mulmx1 trmxK /ppca_covariance expr0n scale0r addr0. Qed.
Print Assumptions C211_drawn_from_latent.
Example C211_nontrivial (R : rcfType) : cholesky (ppca_covariance (Wc R) 15%:R) (Lc R) /\ second_moment (uc R) = 1%:M /\
  ~ diagonal (ppca_covariance (Wc R) 15%:R).
Proof. split; first exact: cholesky_c. split; [exact: moment_c | exact: correlated_c]. Qed.
