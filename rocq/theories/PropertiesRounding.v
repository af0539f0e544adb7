(** Distance kernels with rounding (C215, C216). *)
From Verif Require Import Base RVec RVecProofs KernelR KernelRSpec KernelRProofs PsdKernelProofs Rounding RoundingSpec RoundingProofs RoundingErrorProofs RoundingExamples.
Open Scope R_scope.

(** C215.  On every machine, all distance kernels are symmetric, bit for bit. *)
Theorem C215_symmetric :
  forall m k d sigma x y, rounds m -> mkvalue m k d sigma x y = mkvalue m k d sigma y x.
Proof. intros m k d sigma x y A. exact (mkvalue_sym m A k d sigma x y). Qed.
Print Assumptions C215_symmetric.
(** All but the Silverman kernel give exactly one for a point and itself, and values between zero and one. *)
Theorem C215_similarity :
  forall m k d sigma x y, rounds m -> exponential m -> (k = Logistic -> balanced m) -> similarity k -> offered d -> 0 < sigma ->
  mkvalue m k d sigma x x = Ok (Fin 1) /\ exists v, mkvalue m k d sigma x y = Ok (Fin v) /\ 0 <= v <= 1.
Proof.
  intros m k d sigma x y A E B Sk O P. split.
  - apply (mkvalue_same m A k d sigma x Sk O); [lra|exact E|exact B].
  - exact (mkvalue_unit m A k d sigma x y Sk O P E B).
Qed.
Print Assumptions C215_similarity.
(** A larger computed distance never gives a larger value; beyond the bandwidth compact kernels are
    exactly zero. *)
Theorem C215_decreasing :
  forall m k v w, rounds m -> compact k \/ (exists b, k = Exponential b /\ increasing (mexp m)) -> 0 <= v <= w ->
  (exists r q, mprofile m k (Fin v) = Fin r /\ mprofile m k (Fin w) = Fin q /\ q <= r) /\
  (compact k -> 1 < v -> mprofile m k (Fin v) = Fin 0).
Proof.
  intros m k v w A K H. split; [exact (profile_mono m A k v w K H)|].
  intros C L. destruct k as [ | | | | | | | |b]; try contradiction; cbn [mprofile window]; (destruct (Rle_dec v 1) as [l|_]; [lra|reflexivity]).
Qed.
Print Assumptions C215_decreasing.
(** The computed distances: the value is a function of the computed distance, which is never negative
    and zero for a point and itself. *)
Theorem C215_distance :
  forall m k d sigma x y, rounds m -> offered d -> 0 < sigma ->
  exists v, 0 <= v /\ mkvalue m k d sigma x y = Ok (mprofile m k (Fin v)) /\
    (match k with Exponential true => msquare_dist_sigma m d sigma x y | _ => mdist_sigma m d sigma x y end = Ok (Fin v)) /\
    (x = y -> v = 0).
Proof.
  intros m k d sigma x y A O P. destruct (scaled_nonneg m A d sigma x y O P) as [[v [V1 V2]] [w [W1 W2]]].
  assert (Z : x = y -> v = 0 /\ w = 0).
  { intros e. subst y. destruct (scaled_same m A d sigma x O ltac:(lra)) as [S1 S2]. rewrite S1 in V2. rewrite S2 in W2.
    injection V2 as V2. injection W2 as W2. split; congruence. }
  unfold mkvalue. destruct k as [ | | | | | | | |[|]];
    try (exists v; rewrite V2; cbn [bind]; (split; [exact V1|]); (split; [reflexivity|]); (split; [reflexivity|]); intro e; exact (proj1 (Z e))).
  exists w. rewrite W2. cbn [bind]. split; [exact W1|]. split; [reflexivity|]. split; [reflexivity|]. intro e. exact (proj2 (Z e)).
Qed.
Print Assumptions C215_distance.
(** A machine that does not round gives the kernels of the documentation, in whatever order it adds. *)
Theorem C215_exact :
  forall m k d sigma x y, exact m -> sums_all m (length (zipw Rminus x y)) -> mkvalue m k d sigma x y = kvalue k d sigma x y.
Proof. exact mkvalue_exact. Qed.
Print Assumptions C215_exact.
(** Met by a machine without rounding, and by fixed-point arithmetic with three binary digits. *)
Example C215_nontrivial :
  (rounds ideal /\ exponential ideal /\ balanced ideal /\ increasing (mexp ideal) /\ exact ideal /\ forall n, n <> 0%nat -> sums_all ideal n) /\
  (rounds fixed_point /\ exponential fixed_point /\ increasing (mexp fixed_point) /\ rnd fixed_point (1 / 3) = 3 / 8).
Proof.
  destruct ideal_rounds as [A [B [C D]]]. destruct eighths_exponential as [E F].
  split; [|exact (conj eighths_rounds (conj E (conj F eighths_not_exact)))].
  repeat (split; [assumption|]). split; [exact ideal_exact|]. intros n H. now apply in_turn_all.
Qed.

(** C216.  The error of the exponential kernels, whatever the points and the bandwidth. *)
Theorem C216_error :
  forall u v m b d sigma x y, accurate u m -> exp_accurate v m -> sums_all m (length (zipw Rminus x y)) -> offered d -> 0 < sigma ->
  exists r k, mkvalue m (Exponential b) d sigma x y = Ok (Fin r) /\ kvalue (Exponential b) d sigma x y = Ok (Fin k) /\
    Rabs (r - k) <= tolerance u v (2 * depth (plan m (length (zipw Rminus x y))) + 10).
Proof. intros u v m b d sigma x y Au Av P O Sg. exact (exponential_error u v m Au Av x y P b d sigma O Sg). Qed.
Print Assumptions C216_error.
(** It is at most twice the number of operations times their accuracy, plus that of the exponential. *)
Theorem C216_tolerance :
  forall u v n, 0 <= u < 1 -> INR n * u <= 1 / 4 -> tolerance u v n <= v + 2 * INR n * u.
Proof. exact tolerance_bound. Qed.
Print Assumptions C216_tolerance.
(** Computed matrices of the Gaussian and of the Laplacian kernel, and of the exponential one with the
    Manhattan distance, are positive semi-definite up to this error times the number of points. *)
Theorem C216_matrices :
  forall u v m b d sigma dim s c r, accurate u m -> exp_accurate v m -> sums_all m dim -> 0 < sigma ->
  d = Euclidean \/ (d = Manhattan /\ b = false) ->
  (forall x y, In x s -> In y s -> mkvalue m (Exponential b) d sigma x y = Ok (Fin (r x y))) ->
  rect dim s -> length c = length s ->
  - (INR (length s) * tolerance u v (2 * depth (plan m dim) + 10) * dot c c) <= quadratic (matrix_of r s) c.
Proof.
  intros u v m b d sigma dim s c r Au Av P Sg D M Rs L.
  assert (F : exists f, (forall x y, kvalue (Exponential b) d sigma x y = Ok (Fin (f x y))) /\ psd_on (fun x => length x = dim) f).
  { destruct D as [->|[-> ->]]; [|exact (manhattan_psd sigma dim Sg)].
    destruct b; [apply (rbf_psd sigma dim); lra|apply (laplacian_psd sigma dim); lra]. }
  destruct F as [f [Ef Pf]]. apply (perturbed_psd (fun x => length x = dim) f); [exact Pf|exact Rs|exact L|].
  intros x y Ix Iy. assert (Ln : length (zipw Rminus x y) = dim).
  { unfold rect in Rs. rewrite Forall_forall in Rs. rewrite zipw_length by (rewrite (Rs x Ix), (Rs y Iy); reflexivity). exact (Rs x Ix). }
  assert (O : offered d) by (destruct D as [->|[-> _]]; exact I).
  rewrite <- Ln in P. destruct (exponential_error u v m Au Av x y P b d sigma O Sg) as [r' [k' [E1 [E2 E3]]]].
  rewrite (M x y Ix Iy) in E1. rewrite (Ef x y) in E2. injection E1 as E1. injection E2 as E2. rewrite E1, E2, <- Ln. exact E3.
Qed.
Print Assumptions C216_matrices.
(** A machine with errors; twenty additions in turn and an accuracy of one millionth. *)
Example C216_nontrivial :
  accurate (/ 1000000) biased /\ exp_accurate (/ 1000000) biased /\ sums_all biased 21 /\ depth (plan biased 21) = 20%nat /\
  tolerance (/ 1000000) (/ 1000000) (2 * 20 + 10) <= / 5000 /\ rnd biased 1 <> 1.
Proof.
  destruct biased_accurate as [A B]. split; [exact A|]. split; [exact B|]. split; [apply in_turn_all; [reflexivity|discriminate]|].
  split; [reflexivity|]. split; [|cbn; lra].
  apply (Rle_trans _ _ _ (tolerance_bound (/ 1000000) (/ 1000000) 50 ltac:(lra) ltac:(rewrite INR_IZR_INZ; cbn; lra))).
  rewrite INR_IZR_INZ. cbn. lra.
Qed.
