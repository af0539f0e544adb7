(** Distance kernels with rounding: proofs. *)
From Verif Require Import Base RVec RVecProofs KernelR KernelRSpec Rounding RoundingSpec.
From Coq Require Import Permutation.
Open Scope R_scope.

(** ** Sums *)
Lemma added_zero r t l : r 0 = 0 -> Forall (fun v => v = 0) l -> added r t l = 0.
Proof.
  intros Z F. induction t as [i|a IHa b IHb]; cbn [added].
  - rewrite Forall_forall in F. destruct (Nat.lt_ge_cases i (length l)) as [H|H]; [apply F, nth_In, H|apply nth_overflow, H].
  - rewrite IHa, IHb, Rplus_0_r. exact Z.
Qed.
Lemma msum_zero m l : rounds m -> Forall (fun v => v = 0) l -> msum m l = 0.
Proof. intros [Z _] F. unfold msum. destruct l as [|v l]; [reflexivity|]. exact (added_zero (rnd m) _ _ Z F). Qed.
Lemma added_nonneg m t l : rounds m -> Forall (fun v => 0 <= v) l -> 0 <= added (rnd m) t l.
Proof.
  intros [Z [_ [_ M]]] F. induction t as [i|a IHa b IHb]; cbn [added].
  - rewrite Forall_forall in F. destruct (Nat.lt_ge_cases i (length l)) as [H|H]; [apply F, nth_In, H|rewrite nth_overflow by exact H; lra].
  - rewrite <- Z. apply M. lra.
Qed.
Lemma msum_nonneg m l : rounds m -> Forall (fun v => 0 <= v) l -> 0 <= msum m l.
Proof. intros A F. unfold msum. destruct l as [|v l]; [lra|]. exact (added_nonneg m _ _ A F). Qed.
Lemma lmax_nonneg l : Forall (fun v => 0 <= v) l -> 0 <= lmax l.
Proof.
  intros F. destruct l as [|v l]; [cbn; lra|]. rewrite Forall_forall in F. apply F. apply lmax_In. discriminate.
Qed.
Lemma lmax_zero l : Forall (fun v => v = 0) l -> lmax l = 0.
Proof.
  intros F. destruct l as [|v l]; [reflexivity|]. rewrite Forall_forall in F. apply F. apply lmax_In. discriminate.
Qed.

Section Rounds.
  Variable m : machine.
  Hypothesis A : rounds m.
  Notation "# x" := (rnd m x) (at level 5, right associativity).
  Lemma rnd0 : # 0 = 0. Proof. exact (proj1 A). Qed.
  Lemma rnd1 : # 1 = 1. Proof. exact (proj1 (proj2 A)). Qed.
  Lemma rnd_odd x : # (- x) = - # x. Proof. exact (proj1 (proj2 (proj2 A)) x). Qed.
  Lemma rnd_mono x y : x <= y -> # x <= # y. Proof. exact (proj2 (proj2 (proj2 A)) x y). Qed.
  Lemma rnd_nonneg x : 0 <= x -> 0 <= # x. Proof. intros H. rewrite <- rnd0. exact (rnd_mono _ _ H). Qed.
  Lemma rnd_nonpos x : x <= 0 -> # x <= 0. Proof. intros H. rewrite <- rnd0. exact (rnd_mono _ _ H). Qed.
  Lemma rnd_le1 x : x <= 1 -> # x <= 1. Proof. intros H. rewrite <- rnd1. exact (rnd_mono _ _ H). Qed.

  (** *** Symmetry *)
  Lemma diffs_opp x y : mdiffs m y x = map Ropp (mdiffs m x y).
  Proof.
    revert y. induction x as [|a x IH]; intros [|b y]; try reflexivity. cbn [mdiffs zipw map].
    unfold mdiffs in IH. rewrite IH. f_equal. rewrite <- rnd_odd. f_equal. ring.
  Qed.
  Lemma squares_sym x y : msquare_dist m x y = msquare_dist m y x.
  Proof. unfold msquare_dist. rewrite (diffs_opp x y), map_map. f_equal. apply map_ext. intros d. f_equal. ring. Qed.
  Lemma abs_sym x y : map Rabs (mdiffs m x y) = map Rabs (mdiffs m y x).
  Proof. rewrite (diffs_opp x y), map_map. apply map_ext. intros d. now rewrite Rabs_Ropp. Qed.
  Lemma mdist_sym d x y : mdist m d x y = mdist m d y x.
  Proof. destruct d; cbn [mdist]; rewrite 1?squares_sym, 1?abs_sym; reflexivity. Qed.
  Lemma mkvalue_sym k d sigma x y : mkvalue m k d sigma x y = mkvalue m k d sigma y x.
  Proof.
    assert (S : msquare_dist_sigma m d sigma x y = msquare_dist_sigma m d sigma y x).
    { unfold msquare_dist_sigma. rewrite (squares_sym x y), (mdist_sym d x y). reflexivity. }
    assert (D : mdist_sigma m d sigma x y = mdist_sigma m d sigma y x).
    { unfold mdist_sigma, msquare_dist_sigma. rewrite (squares_sym x y), (mdist_sym d x y). reflexivity. }
    unfold mkvalue. now rewrite S, D.
  Qed.

  (** *** The same point *)
  Lemma diffs_same x : Forall (fun v => v = 0) (mdiffs m x x).
  Proof.
    unfold mdiffs. rewrite zipw_same. apply Forall_map, Forall_forall. intros a _. rewrite Rminus_eq_0. exact rnd0.
  Qed.
  Lemma squares_same x : msquare_dist m x x = 0.
  Proof.
    unfold msquare_dist. apply (msum_zero m _ A). apply Forall_map. eapply Forall_impl; [|exact (diffs_same x)].
    intros v ->. rewrite Rmult_0_l. exact rnd0.
  Qed.
  Lemma abs_same x : Forall (fun v => v = 0) (map Rabs (mdiffs m x x)).
  Proof. apply Forall_map. eapply Forall_impl; [|exact (diffs_same x)]. intros v ->. exact Rabs_R0. Qed.
  Lemma scaled_same d sigma x : offered d -> sigma <> 0 ->
    mdist_sigma m d sigma x x = Ok (Fin 0) /\ msquare_dist_sigma m d sigma x x = Ok (Fin 0).
  Proof.
    intros O P. destruct d; try contradiction; cbn [mdist_sigma msquare_dist_sigma mdist bind].
    - rewrite squares_same. destruct (Req_EM_T sigma 0) as [z|_]; [contradiction|]. cbn [mf].
      rewrite Rmult_0_r, rnd0, sqrt_0, rnd0. split; reflexivity.
    - rewrite (lmax_zero _ (abs_same x)). unfold mover. destruct (Req_EM_T sigma 0) as [z|_]; [contradiction|]. cbn [mf].
      rewrite Rmult_0_r, rnd0, Rmult_0_r, rnd0. split; reflexivity.
    - rewrite (msum_zero m _ A (abs_same x)). unfold mover. destruct (Req_EM_T sigma 0) as [z|_]; [contradiction|]. cbn [mf].
      rewrite Rmult_0_r, rnd0, Rmult_0_r, rnd0. split; reflexivity.
  Qed.
  Lemma profile_zero k : similarity k -> exponential m -> (k = Logistic -> balanced m) -> mprofile m k (Fin 0) = Fin 1.
  Proof.
    intros Sk [E _] B. unfold similarity in Sk.
    assert (T : # (1 - # (0 * 0)) = 1) by (rewrite Rmult_0_l, rnd0, Rminus_0_r; exact rnd1).
    assert (C0 : cube m 0 = 0) by (unfold cube; rewrite Rmult_0_r; exact rnd0).
    assert (C1 : cube m 1 = 1) by (unfold cube; rewrite !Rmult_1_r, rnd1; exact rnd1).
    destruct k as [ | | | | | | | |b]; cbn [mprofile window]; try (destruct (Rle_dec 0 1) as [_|n]; [|lra]).
    - now rewrite T.
    - cbv zeta. now rewrite T, Rmult_1_r, rnd1.
    - now rewrite T, C1.
    - rewrite C0, Rminus_0_r, rnd1, C1. reflexivity.
    - rewrite Rminus_0_r, rnd1. reflexivity.
    - reflexivity.
    - destruct (B eq_refl) as [R2 [R4 _]]. rewrite Ropp_0, E. replace (1 + 1) with 2 by ring. rewrite R2.
      replace (2 + 2) with 4 by ring. rewrite R4. replace (4 / 4) with 1 by field. now rewrite rnd1.
    - contradiction.
    - destruct b; rewrite Rmult_0_l, rnd0, E; reflexivity.
  Qed.
  Lemma mkvalue_same k d sigma x : similarity k -> offered d -> sigma <> 0 -> exponential m -> (k = Logistic -> balanced m) ->
    mkvalue m k d sigma x x = Ok (Fin 1).
  Proof.
    intros Sk O P E B. destruct (scaled_same d sigma x O P) as [S1 S2]. unfold mkvalue.
    pose proof (profile_zero k Sk E B) as Z. destruct k as [ | | | | | | | |[|]]; rewrite ?S1, ?S2; cbn [bind]; now rewrite Z.
  Qed.

  (** *** Bounds *)
  Lemma squares_nonneg x y : 0 <= msquare_dist m x y.
  Proof.
    unfold msquare_dist. apply (msum_nonneg m _ A). apply Forall_map, Forall_forall. intros d _. apply rnd_nonneg.
    pose proof (pow2_ge_0 d). lra.
  Qed.
  Lemma abs_nonneg l : Forall (fun v => 0 <= v) (map Rabs l).
  Proof. apply Forall_map, Forall_forall. intros d _. apply Rabs_pos. Qed.
  Lemma scaled_nonneg d sigma x y : offered d -> 0 < sigma ->
    (exists v, 0 <= v /\ mdist_sigma m d sigma x y = Ok (Fin v)) /\ (exists v, 0 <= v /\ msquare_dist_sigma m d sigma x y = Ok (Fin v)).
  Proof.
    intros O P. assert (S : 0 <= # (1 / sigma)).
    { apply rnd_nonneg. pose proof (Rinv_0_lt_compat sigma P). lra. }
    assert (N : forall r, 0 <= r -> exists v, 0 <= v /\ mover m sigma r = Fin v).
    { intros r H. exists (# (# (1 / sigma) * r)). split; [apply rnd_nonneg, Rmult_le_pos; assumption|].
      unfold mover. destruct (Req_EM_T sigma 0) as [z|_]; [lra|reflexivity]. }
    assert (Q : forall r, 0 <= r -> (exists v, 0 <= v /\ Ok (mover m sigma r) = Ok (Fin v)) /\
                                   exists v, 0 <= v /\ Ok (mf m (fun r => r * r) (mover m sigma r)) = Ok (Fin v)).
    { intros r H. destruct (N r H) as [v [V E]]. rewrite E. split; [exists v; split; [exact V|reflexivity]|].
      exists (# (v * v)). split; [apply rnd_nonneg, Rmult_le_pos; exact V|reflexivity]. }
    destruct d; try contradiction; cbn [mdist_sigma msquare_dist_sigma mdist bind].
    - destruct (Req_EM_T sigma 0) as [z|_]; [lra|]. cbn [mf].
      set (v := # (# (# (1 / sigma) * # (1 / sigma)) * msquare_dist m x y)).
      assert (V : 0 <= v).
      { apply rnd_nonneg, Rmult_le_pos; [apply rnd_nonneg, Rmult_le_pos; exact S|apply squares_nonneg]. }
      split; [exists (# (sqrt v)); split; [apply rnd_nonneg, sqrt_pos|reflexivity]|exists v; split; [exact V|reflexivity]].
    - apply Q. apply lmax_nonneg, abs_nonneg.
    - apply Q. apply (msum_nonneg m _ A), abs_nonneg.
  Qed.
  Lemma unit_mult a b : 0 <= a <= 1 -> 0 <= b <= 1 -> 0 <= # (a * b) <= 1.
  Proof. intros [A1 A2] [B1 B2]. split; [apply rnd_nonneg, Rmult_le_pos; assumption|]. apply rnd_le1. nra. Qed.
  Lemma unit_minus a : 0 <= a <= 1 -> 0 <= # (1 - a) <= 1.
  Proof. intros [A1 A2]. split; [apply rnd_nonneg; lra|apply rnd_le1; lra]. Qed.
  Lemma unit_cube a : 0 <= a <= 1 -> 0 <= cube m a <= 1.
  Proof. intros H. unfold cube. apply unit_mult; [apply unit_mult; exact H|exact H]. Qed.
  Lemma window_unit f v : 0 <= v -> (0 <= v <= 1 -> 0 <= f v <= 1) -> exists r, window f (Fin v) = Fin r /\ 0 <= r <= 1.
  Proof. intros H F. cbn [window]. destruct (Rle_dec v 1) as [l|l]; eexists; (split; [reflexivity|]); [apply F; lra|lra]. Qed.
  Lemma profile_unit k v : similarity k -> exponential m -> (k = Logistic -> balanced m) -> 0 <= v ->
    exists r, mprofile m k (Fin v) = Fin r /\ 0 <= r <= 1.
  Proof.
    intros Sk [E0 [E1 E2]] B H. unfold similarity in Sk.
    destruct k as [ | | | | | | | |b]; cbn [mprofile]; try (apply (window_unit _ v H); intros U; cbv zeta).
    - apply unit_minus, unit_mult; exact U.
    - apply unit_mult; apply unit_minus, unit_mult; exact U.
    - apply unit_cube, unit_minus, unit_mult; exact U.
    - apply unit_cube, unit_minus, unit_cube; exact U.
    - apply unit_minus; exact U.
    - lra.
    - destruct (B eq_refl) as [R2 [R4 B2]]. eexists. split; [reflexivity|].
      assert (F : 4 <= # (# (mexp m v + mexp m (- v)) + 2)).
      { rewrite <- R4 at 1. apply rnd_mono. specialize (B2 v). lra. }
      set (q := # (# (mexp m v + mexp m (- v)) + 2)) in *.
      assert (I : 0 < / q) by (apply Rinv_0_lt_compat; lra).
      split; [apply rnd_nonneg; unfold Rdiv; lra|]. apply rnd_le1.
      apply (Rmult_le_reg_r q); [lra|]. unfold Rdiv. rewrite Rmult_assoc, Rinv_l by lra. lra.
    - contradiction.
    - assert (N : # (- (1 / 2)) <= 0) by (apply rnd_nonpos; lra).
      assert (N' : # (- sqrt (1 / 2)) <= 0) by (apply rnd_nonpos; pose proof (sqrt_pos (1 / 2)); lra).
      assert (X : forall c, c <= 0 -> # (v * c) <= 0) by (intros c Hc; apply rnd_nonpos; nra).
      destruct b; eexists; (split; [reflexivity|]); (split; [apply E1|apply E2, X; assumption]).
  Qed.
  Lemma mkvalue_unit k d sigma x y : similarity k -> offered d -> 0 < sigma -> exponential m -> (k = Logistic -> balanced m) ->
    exists r, mkvalue m k d sigma x y = Ok (Fin r) /\ 0 <= r <= 1.
  Proof.
    intros Sk O P E B. destruct (scaled_nonneg d sigma x y O P) as [[v [V1 V2]] [w [W1 W2]]]. unfold mkvalue.
    destruct (profile_unit k v Sk E B V1) as [r [R1 R2]]. destruct (profile_unit k w Sk E B W1) as [q [Q1 Q2]].
    destruct k as [ | | | | | | | |[|]]; rewrite ?V2, ?W2; cbn [bind]; rewrite ?R1, ?Q1; eexists; (split; [reflexivity|assumption]).
  Qed.

  (** *** Order *)
  Lemma mult_mono a b c d : 0 <= a <= b -> 0 <= c <= d -> 0 <= # (a * c) <= # (b * d).
  Proof. intros [A1 A2] [C1 C2]. split; [apply rnd_nonneg, Rmult_le_pos; assumption|]. apply rnd_mono. apply Rmult_le_compat; assumption. Qed.
  Lemma cube_mono a b : 0 <= a <= b -> 0 <= cube m a <= cube m b.
  Proof. intros H. unfold cube. apply mult_mono; [apply mult_mono; exact H|exact H]. Qed.
  Lemma minus_mono a b : 0 <= a <= b -> b <= 1 -> 0 <= # (1 - b) <= # (1 - a).
  Proof. intros [A1 A2] B. split; [apply rnd_nonneg; lra|apply rnd_mono; lra]. Qed.
  Lemma window_mono f v w : 0 <= v <= w -> (w <= 1 -> f w <= f v) -> (0 <= v <= 1 -> 0 <= f v) ->
    exists r q, window f (Fin v) = Fin r /\ window f (Fin w) = Fin q /\ q <= r.
  Proof.
    intros H M N. cbn [window]. do 2 eexists. split; [reflexivity|]. split; [reflexivity|].
    destruct (Rle_dec v 1) as [l|l], (Rle_dec w 1) as [l'|l']; [apply M; exact l'|apply N; lra|lra|lra].
  Qed.
  Lemma profile_mono k v w : compact k \/ (exists b, k = Exponential b /\ increasing (mexp m)) -> 0 <= v <= w ->
    exists r q, mprofile m k (Fin v) = Fin r /\ mprofile m k (Fin w) = Fin q /\ q <= r.
  Proof.
    intros K H. assert (U : w <= 1 -> 0 <= # (v * v) <= # (w * w) /\ # (w * w) <= 1).
    { intros W. split; [apply mult_mono; exact H|]. apply rnd_le1. nra. }
    assert (V1 : 0 <= v <= 1 -> 0 <= # (1 - # (v * v)) <= 1) by (intros V; apply unit_minus, unit_mult; exact V).
    destruct K as [C|[b [-> M]]].
    - destruct k as [ | | | | | | | |b]; try contradiction; cbn [mprofile].
      + apply window_mono; [exact H| |intros V; exact (proj1 (V1 V))].
        intros W. destruct (U W) as [U1 U2]. exact (proj2 (minus_mono _ _ U1 U2)).
      + apply window_mono; [exact H| |intros V; cbv zeta; exact (proj1 (unit_mult _ _ (V1 V) (V1 V)))].
        intros W. destruct (U W) as [U1 U2]. cbv zeta. pose proof (minus_mono _ _ U1 U2) as Q. exact (proj2 (mult_mono _ _ _ _ Q Q)).
      + apply window_mono; [exact H| |intros V; exact (proj1 (unit_cube _ (V1 V)))].
        intros W. destruct (U W) as [U1 U2]. exact (proj2 (cube_mono _ _ (minus_mono _ _ U1 U2))).
      + apply window_mono; [exact H| |intros V; exact (proj1 (unit_cube _ (unit_minus _ (unit_cube _ V))))].
        intros W. refine (proj2 (cube_mono _ _ (minus_mono _ _ (cube_mono _ _ H) _))). apply unit_cube. lra.
      + apply window_mono; [exact H| |intros V; exact (proj1 (unit_minus _ V))].
        intros W. exact (proj2 (minus_mono _ _ H W)).
      + do 2 eexists. split; [reflexivity|]. split; [reflexivity|]. destruct (Rle_dec v 1), (Rle_dec w 1); lra.
    - assert (N : # (- (1 / 2)) <= 0) by (apply rnd_nonpos; lra).
      assert (N' : # (- sqrt (1 / 2)) <= 0) by (apply rnd_nonpos; pose proof (sqrt_pos (1 / 2)); lra).
      destruct b; cbn [mprofile]; do 2 eexists; (split; [reflexivity|]); (split; [reflexivity|]); apply M, rnd_mono; nra.
  Qed.
End Rounds.
