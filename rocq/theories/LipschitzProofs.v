(** Proofs for [PropertiesLipschitz]. *)
From Coq Require Import Lra Lia.
From Verif Require Import Base Beautify RVec RVecProofs KernelR KernelRSpec KernelRProofs LipschitzSpec.
Open Scope R_scope.

(** ** Elementary functions *)
Lemma exp_ge_1 x : 0 <= x -> 1 <= exp x.
Proof. intros H. pose proof (exp_ineq1_le x) as E. lra. Qed.
Lemma exp_ge x : x <= exp x.
Proof. pose proof (exp_ineq1_le x). lra. Qed.
Lemma exp_neg_le_1 x : 0 <= x -> exp (- x) <= 1.
Proof. intros H. rewrite <- exp_0. apply exp_mono. lra. Qed.
Lemma x_exp_neg x : x * exp (- x) <= 1.
Proof.
  rewrite exp_Ropp. pose proof (exp_pos x) as P. pose proof (exp_ge x) as G.
  apply (Rmult_le_reg_r (exp x)); [exact P |]. rewrite Rmult_assoc, Rinv_l by lra. lra.
Qed.
(** The difference of two exponentials, from the larger one. *)
Lemma exp_neg_diff a b : a <= b -> 0 <= exp (- a) - exp (- b) <= exp (- a) * (b - a).
Proof.
  intros H. split; [pose proof (exp_mono (- b) (- a) ltac:(lra)); lra |].
  replace (- b) with (- a + - (b - a)) by ring. rewrite exp_plus.
  pose proof (exp_pos (- a)) as P. pose proof (exp_ineq1_le (- (b - a))) as E. nra.
Qed.
Lemma sin_le_abs x : Rabs (sin x) <= Rabs x.
Proof.
  destruct (Rtotal_order x 0) as [N | [-> | P]].
  - rewrite (Rabs_left x N). pose proof (sin_lt_x (- x) ltac:(lra)) as L. rewrite sin_neg in L.
    pose proof (SIN_bound x) as B. apply Rabs_le. split; [lra |].
    destruct (Rle_lt_dec (- PI / 2) x) as [H | H].
    + assert (sin x <= 0); [| lra]. rewrite <- (Ropp_involutive (sin x)), <- sin_neg.
      pose proof (sin_ge_0 (- x)) as G. pose proof PI_RGT_0 as PP. assert (0 <= sin (- x)) by (apply G; lra). lra.
    + pose proof PI2_1 as Q. lra.
  - rewrite sin_0. lra.
  - rewrite (Rabs_right x) by lra. pose proof (sin_lt_x x P) as L. pose proof (SIN_bound x) as B.
    apply Rabs_le. split; [| lra].
    destruct (Rle_lt_dec x (PI / 2)) as [H | H].
    + pose proof PI_RGT_0 as PP. assert (0 <= sin x) by (apply sin_ge_0; lra). lra.
    + pose proof PI2_1 as Q. lra.
Qed.
Lemma sin_lipschitz a b : Rabs (sin a - sin b) <= Rabs (a - b).
Proof.
  rewrite form4. rewrite Rabs_mult, Rabs_mult.
  rewrite (Rabs_right 2) by lra.
  pose proof (sin_le_abs ((a - b) / 2)) as S. pose proof (COS_bound ((a + b) / 2)) as C.
  assert (Rabs (cos ((a + b) / 2)) <= 1) by (apply Rabs_le; lra).
  assert (E : Rabs ((a - b) / 2) = Rabs (a - b) / 2).
  { unfold Rdiv. rewrite Rabs_mult. rewrite (Rabs_right (/ 2)) by lra. reflexivity. }
  rewrite E in S. pose proof (Rabs_pos (cos ((a + b) / 2))). pose proof (Rabs_pos (sin ((a - b) / 2))). nra.
Qed.
Lemma sin_abs_1 x : Rabs (sin x) <= 1.
Proof. pose proof (SIN_bound x). apply Rabs_le. lra. Qed.
Lemma pow_diff n a b : 0 <= a <= 1 -> 0 <= b <= 1 -> Rabs (a ^ n - b ^ n) <= INR n * Rabs (a - b).
Proof.
  intros Ha Hb. induction n as [| n IH]; [cbn; rewrite Rminus_diag_eq, Rabs_R0 by reflexivity; lra |].
  rewrite S_INR. cbn [pow]. replace (a * a ^ n - b * b ^ n) with (a * (a ^ n - b ^ n) + (a - b) * b ^ n) by ring.
  eapply Rle_trans; [apply Rabs_triang |]. rewrite !Rabs_mult.
  pose proof (pow_unit b n Hb) as Pb. rewrite (Rabs_right a), (Rabs_right (b ^ n)) by lra.
  pose proof (Rabs_pos (a ^ n - b ^ n)). pose proof (Rabs_pos (a - b)). nra.
Qed.

(** ** Profiles *)
Definition compact (k : kern) : bool := match k with Epanechnikov | Quartic | Triweight | Tricube | Triangular => true | _ => false end.
(** The polynomial of a kernel of compact support. *)
Definition inside (k : kern) (t : R) : R :=
  match k with
  | Epanechnikov => 1 - t ^ 2
  | Quartic => (1 - t ^ 2) ^ 2
  | Triweight => (1 - t ^ 2) ^ 3
  | Tricube => (1 - t ^ 3) ^ 3
  | _ => 1 - t
  end.
Lemma shape_compact k t : compact k = true -> shape k t = if Rle_dec t 1 then inside k t else 0.
Proof. destruct k; intros H; try discriminate H; reflexivity. Qed.
Lemma inside_1 k : compact k = true -> inside k 1 = 0.
Proof. destruct k; intros H; try discriminate H; cbn; ring. Qed.
Lemma inside_lipschitz k s t : compact k = true -> 0 <= s <= 1 -> 0 <= t <= 1 ->
  Rabs (inside k s - inside k t) <= sensitivity k * Rabs (s - t).
Proof.
  intros Hk Hs Ht. pose proof (pow_diff 2 s t Hs Ht) as D2. pose proof (pow_diff 3 s t Hs Ht) as D3.
  pose proof (pow_unit s 2 Hs) as S2. pose proof (pow_unit t 2 Ht) as T2.
  pose proof (pow_unit s 3 Hs) as S3. pose proof (pow_unit t 3 Ht) as T3.
  assert (F : forall a b, Rabs (1 - a - (1 - b)) = Rabs (a - b)).
  { intros a b. rewrite <- Rabs_Ropp. f_equal. ring. }
  pose proof (Rabs_pos (s - t)) as P.
  replace (INR 2) with 2 in D2 by (cbn; lra). replace (INR 3) with 3 in D3 by (cbn; lra).
  destruct k; try discriminate Hk; cbn [inside sensitivity].
  - rewrite F. exact D2.
  - pose proof (pow_diff 2 (1 - s ^ 2) (1 - t ^ 2) ltac:(lra) ltac:(lra)) as D. rewrite F in D.
    replace (INR 2) with 2 in D by (cbn; lra). lra.
  - pose proof (pow_diff 3 (1 - s ^ 2) (1 - t ^ 2) ltac:(lra) ltac:(lra)) as D. rewrite F in D.
    replace (INR 3) with 3 in D by (cbn; lra). lra.
  - pose proof (pow_diff 3 (1 - s ^ 3) (1 - t ^ 3) ltac:(lra) ltac:(lra)) as D. rewrite F in D.
    replace (INR 3) with 3 in D by (cbn; lra). lra.
  - rewrite F. lra.
Qed.
Lemma sensitivity_nonneg k : 0 <= sensitivity k.
Proof. destruct k; cbn; lra. Qed.
(** For [s <= t]: both bounds at once. *)
Lemma compact_ordered k s t : compact k = true -> 0 <= s <= t ->
  Rabs (shape k s - shape k t) <= sensitivity k * (t - s) /\ (1 < s -> shape k s = shape k t).
Proof.
  intros Hk [H0 H1]. rewrite !(shape_compact k) by exact Hk. pose proof (sensitivity_nonneg k) as L.
  destruct (Rle_dec s 1) as [Hs | Hs], (Rle_dec t 1) as [Ht | Ht].
  - split; [| lra]. pose proof (inside_lipschitz k s t Hk ltac:(lra) ltac:(lra)) as D.
    rewrite (Rabs_minus_sym s t), (Rabs_right (t - s)) in D by lra. exact D.
  - split; [| lra]. pose proof (inside_lipschitz k s 1 Hk ltac:(lra) ltac:(lra)) as D. rewrite inside_1 in D by exact Hk.
    rewrite (Rabs_minus_sym s 1), (Rabs_right (1 - s)) in D by lra. nra.
  - exfalso. lra.
  - split; [| reflexivity]. rewrite Rminus_diag_eq, Rabs_R0 by reflexivity. nra.
Qed.
Lemma logistic_ordered s t : 0 <= s <= t ->
  0 <= shape Logistic s - shape Logistic t /\ shape Logistic s - shape Logistic t <= t - s /\
  shape Logistic s - shape Logistic t <= 4 * (exp (- s) * (t - s)).
Proof.
  intros [H0 H1]. cbn [shape]. set (C := fun u => exp u + exp (- u)).
  change (exp s + exp (- s) + 2) with (C s + 2). change (exp t + exp (- t) + 2) with (C t + 2).
  assert (Pos : forall u, 2 <= C u).
  { intros u. unfold C. pose proof (exp_pos u) as P. rewrite exp_Ropp.
    pose proof (Rinv_0_lt_compat _ P) as Q. pose proof (Rinv_r (exp u) ltac:(lra)) as E. pose proof (Rle_0_sqr (exp u - 1)) as S. unfold Rsqr in S. nra. }
  pose proof (Pos s) as Ps. pose proof (Pos t) as Pt.
  pose proof (cosh_mono s t H0 H1) as Mono. fold (C s) (C t) in Mono.
  assert (E : 4 / (C s + 2) - 4 / (C t + 2) = 4 * ((C t - C s) * / (C t + 2) * / (C s + 2))) by (field; lra).
  assert (U : C t - C s <= exp t * (t - s)).
  { unfold C. pose proof (exp_neg_diff s t H1) as [D1 D2].
    pose proof (exp_neg_diff (- t) (- s) ltac:(lra)) as [D3 D4]. rewrite !Ropp_involutive in D3, D4.
    replace (- s - - t) with (t - s) in D4 by ring. lra. }
  assert (V : exp t <= C t + 2) by (unfold C; pose proof (exp_pos (- t)); lra).
  assert (W : exp s <= C s + 2) by (unfold C; pose proof (exp_pos (- s)); lra).
  assert (It : 0 < / (C t + 2)) by (apply Rinv_0_lt_compat; lra).
  assert (Is : 0 < / (C s + 2)) by (apply Rinv_0_lt_compat; lra).
  assert (X : (C t - C s) * / (C t + 2) <= t - s).
  { apply (Rmult_le_reg_r (C t + 2)); [lra |]. rewrite Rmult_assoc, Rinv_l by lra. nra. }
  assert (X0 : 0 <= (C t - C s) * / (C t + 2)) by (apply Rmult_le_pos; lra).
  assert (Y : / (C s + 2) <= / 4) by (apply Rinv_le_contravar; lra).
  assert (Z : / (C s + 2) <= exp (- s)) by (rewrite exp_Ropp; apply Rinv_le_contravar; [apply exp_pos | exact W]).
  rewrite E. set (q := (C t - C s) * / (C t + 2)) in *. set (i := / (C s + 2)) in *.
  pose proof (exp_pos (- s)) as Pe.
  assert (A0 : 0 <= q * i) by (apply Rmult_le_pos; lra).
  assert (A1 : q * i <= q * / 4) by (apply Rmult_le_compat_l; lra).
  assert (A2 : q * i <= (t - s) * exp (- s)) by (apply Rmult_le_compat; lra).
  repeat split; lra.
Qed.
Lemma silverman_ordered s t : 0 <= s <= t ->
  Rabs (shape Silverman s - shape Silverman t) <= 2 * (exp (- (sqrt (1 / 2) * s)) * (sqrt (1 / 2) * t - sqrt (1 / 2) * s)).
Proof.
  intros [H0 H1]. cbn [shape]. pose proof sqrt_half_pos as Pc. set (c := sqrt (1 / 2)) in *.
  assert (Hab : c * s <= c * t) by (apply Rmult_le_compat_l; lra).
  set (a := c * s) in *. set (b := c * t) in *.
  replace (exp (- a) * sin (PI / 4 + a) - exp (- b) * sin (PI / 4 + b))
    with ((exp (- a) - exp (- b)) * sin (PI / 4 + b) + exp (- a) * (sin (PI / 4 + a) - sin (PI / 4 + b))) by ring.
  eapply Rle_trans; [apply Rabs_triang |]. rewrite !Rabs_mult.
  pose proof (exp_neg_diff a b Hab) as [D1 D2]. pose proof (sin_abs_1 (PI / 4 + b)) as S1.
  pose proof (sin_lipschitz (PI / 4 + a) (PI / 4 + b)) as S2. replace (PI / 4 + a - (PI / 4 + b)) with (a - b) in S2 by ring.
  rewrite (Rabs_minus_sym a b), (Rabs_right (b - a)) in S2 by lra.
  rewrite (Rabs_right (exp (- a) - exp (- b))) by lra. pose proof (exp_pos (- a)) as Pe. rewrite (Rabs_right (exp (- a))) by lra.
  pose proof (Rabs_pos (sin (PI / 4 + b))). pose proof (Rabs_pos (sin (PI / 4 + a) - sin (PI / 4 + b))).
  assert ((exp (- a) - exp (- b)) * Rabs (sin (PI / 4 + b)) <= exp (- a) * (b - a)) by nra. nra.
Qed.
Lemma sqrt_half_le_1 : sqrt (1 / 2) <= 1.
Proof. pose proof (sqrt_le_1_alt (1 / 2) 1 ltac:(lra)) as H. rewrite sqrt_1 in H. exact H. Qed.
Lemma laplace_ordered s t : 0 <= s <= t ->
  0 <= shape (Exponential false) s - shape (Exponential false) t <= exp (- (sqrt (1 / 2) * s)) * (sqrt (1 / 2) * t - sqrt (1 / 2) * s).
Proof.
  intros [H0 H1]. cbn [shape]. pose proof sqrt_half_pos as Pc. set (c := sqrt (1 / 2)) in *.
  replace (s * - c) with (- (c * s)) by ring. replace (t * - c) with (- (c * t)) by ring.
  apply exp_neg_diff. apply Rmult_le_compat_l; lra.
Qed.
Lemma gauss_ordered s t : 0 <= s <= t ->
  0 <= shape (Exponential true) s - shape (Exponential true) t <= 1 /\
  shape (Exponential true) s - shape (Exponential true) t <= exp (- (s * s / 2)) * (t * t / 2 - s * s / 2).
Proof.
  intros [H0 H1]. cbn [shape].
  replace (s * s * - (1 / 2)) with (- (s * s / 2)) by field. replace (t * t * - (1 / 2)) with (- (t * t / 2)) by field.
  pose proof (exp_neg_diff (s * s / 2) (t * t / 2) ltac:(nra)) as [D1 D2].
  pose proof (exp_neg_le_1 (s * s / 2) ltac:(nra)). pose proof (exp_pos (- (t * t / 2))). lra.
Qed.
Lemma twice_small e c s t : 0 < e <= 1 -> 0 < c <= 1 -> s <= t -> e * (c * t - c * s) <= t - s.
Proof.
  intros He Hc H. replace (c * t - c * s) with (c * (t - s)) by ring. rewrite <- Rmult_assoc.
  assert (e * c <= 1) by nra. assert (0 <= t - s) by lra. nra.
Qed.
Lemma shape_ordered k s t : continuous_kernel k -> 0 <= s <= t -> Rabs (shape k s - shape k t) <= sensitivity k * (t - s).
Proof.
  intros Hk H. destruct (compact k) eqn:C; [exact (proj1 (compact_ordered k s t C H)) |].
  pose proof sqrt_half_pos as Pc. pose proof sqrt_half_le_1 as Lc.
  destruct k as [| | | | | | | |[|]]; try discriminate C; cbn [sensitivity].
  - exfalso. now apply Hk.
  - destruct (logistic_ordered s t H) as [A [B _]]. rewrite Rabs_right by lra. lra.
  - pose proof (silverman_ordered s t H) as A. pose proof (exp_neg_le_1 (sqrt (1 / 2) * s) ltac:(nra)) as E.
    pose proof (exp_pos (- (sqrt (1 / 2) * s))) as P.
    pose proof (twice_small _ _ s t (conj P E) (conj Pc Lc) (proj2 H)) as T. lra.
  - destruct (gauss_ordered s t H) as [[A A1] B]. rewrite Rabs_right by lra.
    destruct (Rle_lt_dec 1 (t - s)) as [G | G]; [lra |].
    assert (Q : exp (- (s * s / 2)) * (s + 1 / 2) <= 1).
    { rewrite exp_Ropp. pose proof (exp_ineq1_le (s * s / 2)) as X. pose proof (exp_pos (s * s / 2)) as Y.
      apply (Rmult_le_reg_l (exp (s * s / 2))); [exact Y |]. rewrite <- Rmult_assoc, Rinv_r by lra.
      pose proof (Rle_0_sqr (s - 1)) as Z. unfold Rsqr in Z. lra. }
    pose proof (exp_pos (- (s * s / 2))) as P. set (e := exp (- (s * s / 2))) in *.
    assert (t * t / 2 - s * s / 2 <= (t - s) * (s + 1 / 2)) by nra. nra.
  - destruct (laplace_ordered s t H) as [A B]. rewrite Rabs_right by lra.
    pose proof (exp_neg_le_1 (sqrt (1 / 2) * s) ltac:(nra)) as E. pose proof (exp_pos (- (sqrt (1 / 2) * s))) as P.
    pose proof (twice_small _ _ s t (conj P E) (conj Pc Lc) (proj2 H)) as T. lra.
Qed.
Lemma shape_lipschitz k s t : continuous_kernel k -> 0 <= s -> 0 <= t -> Rabs (shape k s - shape k t) <= sensitivity k * Rabs (s - t).
Proof.
  intros Hk Hs Ht. destruct (Rle_lt_dec s t) as [H | H].
  - rewrite (Rabs_minus_sym s t), (Rabs_right (t - s)) by lra. apply shape_ordered; [exact Hk | lra].
  - rewrite (Rabs_right (s - t)) by lra. rewrite Rabs_minus_sym. apply shape_ordered; [exact Hk | lra].
Qed.
(** The relative change: [t = s (1 + delta)]. *)
Lemma shape_relative k s delta : continuous_kernel k -> 0 <= s -> 0 <= delta ->
  Rabs (shape k s - shape k (s * (1 + delta))) <= bandwidth_sensitivity k * delta.
Proof.
  intros Hk Hs Hd. assert (H : 0 <= s <= s * (1 + delta)) by nra. set (t := s * (1 + delta)) in *.
  assert (Et : t - s = s * delta) by (unfold t; ring).
  pose proof sqrt_half_pos as Pc.
  destruct (compact k) eqn:C.
  - assert (B : bandwidth_sensitivity k = sensitivity k) by (destruct k; try discriminate C; reflexivity). rewrite B.
    destruct (compact_ordered k s t C H) as [A A1]. pose proof (sensitivity_nonneg k) as L.
    destruct (Rle_lt_dec s 1) as [G | G].
    + rewrite Et in A. assert (s * delta <= delta) by nra. nra.
    + rewrite (A1 G), Rminus_diag_eq, Rabs_R0 by reflexivity. nra.
  - destruct k as [| | | | | | | |[|]]; try discriminate C; cbn [bandwidth_sensitivity].
    + exfalso. now apply Hk.
    + destruct (logistic_ordered s t H) as [A [_ B]]. rewrite Rabs_right by lra. rewrite Et in B.
      pose proof (x_exp_neg s) as X. nra.
    + pose proof (silverman_ordered s t H) as A. pose proof (x_exp_neg (sqrt (1 / 2) * s)) as X.
      replace (sqrt (1 / 2) * t - sqrt (1 / 2) * s) with (sqrt (1 / 2) * s * delta) in A by (unfold t; ring). nra.
    + destruct (gauss_ordered s t H) as [[A A1] B]. rewrite Rabs_right by lra.
      destruct (Rle_lt_dec 1 delta) as [G | G]; [lra |].
      pose proof (x_exp_neg (s * s / 2)) as X. pose proof (exp_pos (- (s * s / 2))) as P.
      replace (t * t / 2 - s * s / 2) with ((s * s / 2) * (2 * delta + delta * delta)) in B by (unfold t; field).
      set (e := exp (- (s * s / 2))) in *. set (q := s * s / 2) in *.
      assert (2 * delta + delta * delta <= 3 * delta) by nra.
      assert (0 <= q) by (unfold q; nra). assert (0 <= q * e) by nra.
      assert (e * (q * (2 * delta + delta * delta)) <= q * e * (3 * delta)) by nra. nra.
    + destruct (laplace_ordered s t H) as [A B]. rewrite Rabs_right by lra. pose proof (x_exp_neg (sqrt (1 / 2) * s)) as X.
      replace (sqrt (1 / 2) * t - sqrt (1 / 2) * s) with (sqrt (1 / 2) * s * delta) in B by (unfold t; ring). nra.
Qed.

(** ** Values *)
Lemma dval_change d x x' y y' : length x = length x' -> length x' = length y -> length y = length y' ->
  Rabs (dval d x y - dval d x' y') <= dval d x x' + dval d y y'.
Proof.
  intros H1 H2 H3.
  pose proof (dval_triangle d x x' y ltac:(congruence) ltac:(congruence)) as A.
  pose proof (dval_triangle d x' y' y ltac:(congruence) ltac:(congruence)) as B.
  pose proof (dval_triangle d x' x y' ltac:(congruence) ltac:(congruence)) as C.
  pose proof (dval_triangle d x y y' ltac:(congruence) ltac:(congruence)) as D.
  rewrite (dval_comm d y' y) in B. rewrite (dval_comm d x' x) in C. apply Rabs_le. lra.
Qed.
Lemma value_lipschitz k d sigma x x' y y' : continuous_kernel k -> offered d -> 0 < sigma ->
  length x = length x' -> length x' = length y -> length y = length y' ->
  Rabs (shape k (dval d x y / sigma) - shape k (dval d x' y' / sigma)) <= sensitivity k * ((dval d x x' + dval d y y') / sigma).
Proof.
  intros Hk Hd Hs H1 H2 H3. assert (Is : 0 < / sigma) by now apply Rinv_0_lt_compat.
  pose proof (dval_nonneg d x y) as N1. pose proof (dval_nonneg d x' y') as N2.
  eapply Rle_trans; [apply shape_lipschitz; [exact Hk | unfold Rdiv; nra | unfold Rdiv; nra] |].
  apply Rmult_le_compat_l; [apply sensitivity_nonneg |].
  replace (dval d x y / sigma - dval d x' y' / sigma) with ((dval d x y - dval d x' y') * / sigma) by (unfold Rdiv; ring).
  rewrite Rabs_mult, (Rabs_right (/ sigma)) by lra. unfold Rdiv. apply Rmult_le_compat_r; [lra |].
  now apply dval_change.
Qed.
Lemma kernel_continuous k d sigma x x' y y' : continuous_kernel k -> offered d -> 0 < sigma ->
  length x = length x' -> length x' = length y -> length y = length y' ->
  exists v v' rx ry, kvalue k d sigma x y = Ok (Fin v) /\ kvalue k d sigma x' y' = Ok (Fin v') /\
    dist d x x' = Ok rx /\ dist d y y' = Ok ry /\ Rabs (v - v') <= sensitivity k * ((rx + ry) / sigma).
Proof.
  intros Hk Hd Hs H1 H2 H3. do 4 eexists.
  split; [now apply kvalue_shape |]. split; [now apply kvalue_shape |]. split; [now apply dist_dval |]. split; [now apply dist_dval |].
  now apply value_lipschitz.
Qed.
Lemma bandwidth_continuous k d sigma sigma' x y : continuous_kernel k -> offered d -> 0 < sigma -> 0 < sigma' ->
  exists v v', kvalue k d sigma x y = Ok (Fin v) /\ kvalue k d sigma' x y = Ok (Fin v') /\
    Rabs (v - v') <= bandwidth_sensitivity k * (Rabs (sigma - sigma') / Rmin sigma sigma').
Proof.
  intros Hk Hd Hs Hs'. do 2 eexists. split; [now apply kvalue_shape |]. split; [now apply kvalue_shape |].
  pose proof (dval_nonneg d x y) as N. set (r := dval d x y) in *. clearbody r.
  assert (W : forall a b, 0 < a -> a <= b -> Rabs (shape k (r / b) - shape k (r / a)) <= bandwidth_sensitivity k * ((b - a) / a)).
  { intros a b Ha Hab. assert (Ib : 0 < / b) by (apply Rinv_0_lt_compat; lra). assert (Ia : 0 < / a) by (apply Rinv_0_lt_compat; lra).
    replace (r / a) with (r / b * (1 + (b - a) / a)) by (field; lra).
    apply shape_relative; [exact Hk | unfold Rdiv; nra | unfold Rdiv; nra]. }
  destruct (Rle_lt_dec sigma sigma') as [H | H].
  - rewrite Rmin_left by lra. rewrite Rabs_minus_sym, (Rabs_minus_sym sigma), (Rabs_right (sigma' - sigma)) by lra. apply W; lra.
  - rewrite Rmin_right by lra. rewrite (Rabs_right (sigma - sigma')) by lra. apply W; lra.
Qed.
(** The uniform kernel jumps. *)
Lemma dval_single d a b : offered d -> dval d [a] [b] = Rabs (a - b).
Proof.
  intros H. destruct d; cbn [dval]; [| | | destruct H].
  - unfold square_dist. cbn. rewrite Rplus_0_r. apply sqrt_Rsqr_abs.
  - unfold absdiff. cbn. reflexivity.
  - unfold absdiff. cbn. lra.
Qed.
Lemma uniform_jumps d sigma eps : offered d -> 0 < sigma -> 0 < eps ->
  exists x x' y r, length x = length y /\ length x' = length y /\ dist d x x' = Ok r /\ r <= eps /\
    kvalue Uniform d sigma x y = Ok (Fin 1) /\ kvalue Uniform d sigma x' y = Ok (Fin 0).
Proof.
  intros Hd Hs He. exists [sigma], [sigma + eps], [0], eps. split; [reflexivity |]. split; [reflexivity |].
  split. { rewrite dist_dval by exact Hd. f_equal. rewrite dval_single by exact Hd.
    replace (sigma - (sigma + eps)) with (- eps) by ring. rewrite Rabs_Ropp. apply Rabs_right. lra. }
  split; [lra |]. rewrite !kvalue_shape by assumption. rewrite !dval_single by exact Hd. rewrite !Rminus_0_r.
  rewrite (Rabs_right sigma), (Rabs_right (sigma + eps)) by lra. cbn [shape]. split; do 2 f_equal.
  - destruct (Rle_dec (sigma / sigma) 1) as [_ | N]; [reflexivity |]. exfalso. apply N. right. field. lra.
  - destruct (Rle_dec ((sigma + eps) / sigma) 1) as [L | _]; [| reflexivity]. exfalso.
    apply (Rmult_le_compat_r sigma) in L; [| lra]. unfold Rdiv in L. rewrite Rmult_assoc, Rinv_l in L by lra. lra.
Qed.
Lemma uniform_steady d sigma x x' y r r' : offered d -> 0 < sigma -> length x = length x' -> length x' = length y ->
  dist d x y = Ok r -> dist d x x' = Ok r' -> r' < Rabs (r - sigma) -> kvalue Uniform d sigma x' y = kvalue Uniform d sigma x y.
Proof.
  intros Hd Hs H1 H2 Er Er' H. rewrite dist_dval in Er, Er' by exact Hd. injection Er as <-. injection Er' as <-.
  rewrite !kvalue_shape by assumption. do 2 f_equal. cbn [shape].
  pose proof (dval_change d x x' y y H1 H2 eq_refl) as C. rewrite (dval_self d y) in C.
  set (a := dval d x y) in *. set (b := dval d x' y) in *. set (e := dval d x x') in *. clearbody a b e.
  assert (T : forall u, u / sigma <= 1 <-> u <= sigma).
  { intros u. split; intros G.
    - apply (Rmult_le_compat_r sigma) in G; [| lra]. unfold Rdiv in G. rewrite Rmult_assoc, Rinv_l in G by lra. lra.
    - apply (Rmult_le_reg_r sigma); [exact Hs |]. unfold Rdiv. rewrite Rmult_assoc, Rinv_l by lra. lra. }
  assert (Rabs (a - b) < Rabs (a - sigma)) as K by lra.
  destruct (Rle_dec (b / sigma) 1) as [L1 | L1], (Rle_dec (a / sigma) 1) as [L2 | L2]; try reflexivity; exfalso;
    rewrite T in L1, L2; unfold Rabs in K; destruct (Rcase_abs (a - b)), (Rcase_abs (a - sigma)); lra.
Qed.

(** ** Dual models *)
Lemma weighted_diff alpha u v : length u = length v -> length alpha = length u ->
  weighted alpha u - weighted alpha v = sum (zipw Rmult alpha (zipw Rminus u v)).
Proof.
  unfold weighted. revert u v. induction alpha as [| a al IH]; intros [| b u] [| c v] H1 H2; cbn in H1, H2; try discriminate; cbn; [lra |].
  injection H1 as H1. injection H2 as H2. pose proof (IH u v H1 H2) as E. unfold sum in E. lra.
Qed.
Lemma weighted_bound alpha w B : length alpha = length w -> 0 <= B -> Forall (fun a => Rabs a <= B) w ->
  Rabs (sum (zipw Rmult alpha w)) <= total alpha * B.
Proof.
  unfold total. revert w. induction alpha as [| a al IH]; intros [| b w] H0 HB H; cbn in H0; try discriminate.
  - cbn. rewrite Rabs_R0. lra.
  - injection H0 as H0. apply Forall_cons_iff in H as [Hb H]. cbn. eapply Rle_trans; [apply Rabs_triang |].
    rewrite Rabs_mult. pose proof (IH w H0 HB H) as E. unfold sum in E. pose proof (Rabs_pos a). nra.
Qed.
Lemma zipw_forall (f : R -> R -> R) (P : R -> Prop) u v : length u = length v ->
  (forall i, (i < length u)%nat -> P (f (nth i u 0) (nth i v 0))) -> Forall P (zipw f u v).
Proof.
  revert v. induction u as [| a u IH]; intros [| b v] H0 H; cbn in H0; try discriminate; cbn; constructor.
  - exact (H 0%nat ltac:(cbn; lia)).
  - injection H0 as H0. apply IH; [exact H0 |]. intros i Hi. exact (H (S i) ltac:(cbn; lia)).
Qed.
Lemma model_continuous k d sigma x x' (s : mat) alpha : continuous_kernel k -> offered d -> 0 < sigma -> length x = length x' ->
  Forall (fun y => length y = length x) s -> length alpha = length s ->
  exists u v r, Forall2 (fun y b => kvalue k d sigma x y = Ok (Fin b)) s u /\ Forall2 (fun y b => kvalue k d sigma x' y = Ok (Fin b)) s v /\
    dist d x x' = Ok r /\ Rabs (weighted alpha u - weighted alpha v) <= total alpha * (sensitivity k * (r / sigma)).
Proof.
  intros Hk Hd Hs Hx Hl Ha.
  exists (map (fun y => shape k (dval d x y / sigma)) s), (map (fun y => shape k (dval d x' y / sigma)) s), (dval d x x').
  assert (F : forall z, Forall2 (fun y b => kvalue k d sigma z y = Ok (Fin b)) s (map (fun y => shape k (dval d z y / sigma)) s)).
  { intros z. clear Hl Ha. induction s as [| y s IH]; cbn; constructor; [now apply kvalue_shape | exact IH]. }
  split; [apply F |]. split; [apply F |]. split; [now apply dist_dval |].
  rewrite weighted_diff by (rewrite !map_length; congruence).
  pose proof (dval_nonneg d x x') as N. pose proof (sensitivity_nonneg k) as L. assert (Is : 0 < / sigma) by now apply Rinv_0_lt_compat.
  apply weighted_bound.
  - clear -Ha. revert alpha Ha. induction s as [| y s IH]; intros [| a al] Ha; cbn in *; try discriminate; [reflexivity |].
    injection Ha as Ha. f_equal. now apply IH.
  - apply Rmult_le_pos; [exact L | unfold Rdiv; nra].
  - clear Ha F. induction s as [| y s IH]; cbn; constructor.
    + apply Forall_cons_iff in Hl as [Hy _]. pose proof (value_lipschitz k d sigma x x' y y Hk Hd Hs Hx ltac:(congruence) eq_refl) as V.
      rewrite (dval_self d y), Rplus_0_r in V. exact V.
    + apply IH. now apply Forall_cons_iff in Hl.
Qed.
