(** Distance kernels that give positive semi-definite matrices, and some that do not:
    proofs. *)
From Verif Require Import Base RVec RVecProofs KernelR KernelRSpec Psd KernelRProofs Multiplier.
Open Scope R_scope.

(** ** Functions all of whose exponentials are multipliers *)

Definition exponentials {X : Type} (dom : X -> Prop) (s : X -> X -> R) : Prop :=
  (forall x y, dom x -> dom y -> 0 <= s x y) /\
  forall t, 0 <= t -> multiplier dom (fun x y => exp (- (t * s x y))).

Section Exponentials.
  Context {X : Type}.
  Variable dom : X -> Prop.
  Variable s : X -> X -> R.
  Hypothesis Hs : exponentials dom s.

  Lemma inverse_mult c : 0 < c -> multiplier dom (fun x y => / (s x y + c)).
  Proof.
    destruct Hs as [H0 He]. intros Hc. apply (mult_limit dom (fun n x y => geometric n (s x y + c))).
    - intros n. unfold geometric. apply mult_scale; [left; apply Rinv_0_lt_compat, lt_0_INR; lia|].
      apply (mult_sum dom (fun k x y => exp (- (INR k * / INR (S n) * (s x y + c))))). intros k.
      assert (Ht : 0 <= INR k * / INR (S n)).
      { apply Rmult_le_pos; [apply pos_INR|]. left. apply Rinv_0_lt_compat, lt_0_INR. lia. }
      apply (mult_ext dom (fun x y => exp (- (INR k * / INR (S n) * c)) * exp (- (INR k * / INR (S n) * s x y)))).
      + intros x y _ _. rewrite <- exp_plus. f_equal. ring.
      + apply mult_scale; [left; apply exp_pos|]. now apply He.
    - intros x y Hx Hy. apply geometric_cv. specialize (H0 x y Hx Hy). lra.
  Qed.

  (** The exponential of the square root. *)
  Lemma root_mult t : 0 <= t -> multiplier dom (fun x y => exp (- (t * sqrt (s x y)))).
  Proof.
    intros Ht. set (a := t * / (PI / 2)).
    assert (Hp : 0 < PI / 2) by (pose proof PI_RGT_0; lra).
    assert (Ha : 0 <= a) by (apply Rmult_le_pos; [exact Ht|left; now apply Rinv_0_lt_compat]).
    apply (mult_limit dom (fun n x y => exp (- (a * rational n (s x y))))).
    - intros n. unfold rational. set (m := INR (S n)).
      assert (Hm : 0 < m) by (apply lt_0_INR; lia). assert (Hi : 0 < / m) by now apply Rinv_0_lt_compat.
      set (N := (n + n * S n)%nat). set (d := fun k => (INR (S k) * / m) ^ 2).
      assert (Hd : forall k, 0 < d k).
      { intros k. unfold d. apply pow_lt. apply Rmult_lt_0_compat; [apply lt_0_INR; lia|exact Hi]. }
      apply (mult_ext dom (fun x y => exp (- (a * sum_f_R0 (fun _ => / m) N)) *
                                      exp (sum_f_R0 (fun k => (a * / m * d k) * / (s x y + d k)) N))).
      + intros x y _ _. rewrite <- exp_plus. f_equal. rewrite !scal_sum.
        enough (E : sum_f_R0 (fun k => / m * (1 - d k * / (s x y + d k)) * a) N =
                    sum_f_R0 (fun k => / m * a) N - sum_f_R0 (fun k => a * / m * d k * / (s x y + d k)) N).
        { change (sum_f_R0 (fun i => / m * (1 - (INR (S i) * / m) ^ 2 * / (s x y + (INR (S i) * / m) ^ 2)) * a) N)
            with (sum_f_R0 (fun k => / m * (1 - d k * / (s x y + d k)) * a) N). rewrite E. ring. }
        rewrite <- minus_sum. apply sum_eq. intros k _. ring.
      + apply mult_scale; [left; apply exp_pos|].
        apply (mult_exp dom (fun x y => sum_f_R0 (fun k => (a * / m * d k) * / (s x y + d k)) N)).
        apply (mult_sum dom (fun k x y => (a * / m * d k) * / (s x y + d k))). intros k. apply mult_scale.
        * apply Rmult_le_pos; [apply Rmult_le_pos; lra|left; apply Hd].
        * apply inverse_mult. apply Hd.
    - intros x y Hx Hy. assert (C : Un_cv (fun n => exp (- (a * rational n (s x y)))) (exp (- (a * (PI / 2 * sqrt (s x y)))))).
      { apply (continuity_seq (fun u => exp (- (a * u))) (fun n => rational n (s x y))).
        - apply derivable_continuous_pt. exists (exp (- (a * (PI / 2 * sqrt (s x y)))) * - (a * 1)).
          apply (derivable_pt_lim_comp (fun u => - (a * u)) exp).
          + apply derivable_pt_lim_opp, derivable_pt_lim_scal, derivable_pt_lim_id.
          + apply derivable_pt_lim_exp.
        - apply rational_cv. now apply (proj1 Hs). }
      replace (t * sqrt (s x y)) with (a * (PI / 2 * sqrt (s x y))); [exact C|]. unfold a. field. pose proof PI_RGT_0. apply Rgt_not_eq. assumption.
  Qed.

  Lemma root_exponentials : exponentials dom (fun x y => sqrt (s x y)).
  Proof. split; [intros; apply sqrt_pos|]. exact root_mult. Qed.

  (** The inverse of a hyperbolic cosine. *)
  Lemma cosh_pos x : 1 <= cosh x.
  Proof.
    unfold cosh. assert (exp x * exp (- x) = 1) by (rewrite <- exp_plus, Rplus_opp_r; apply exp_0).
    pose proof (exp_pos x). pose proof (exp_pos (- x)). set (p := exp x) in *. set (q := exp (- x)) in *.
    assert (4 <= (p + q) * (p + q)) by (pose proof (Rle_0_sqr (p - q)) as S; unfold Rsqr in S; nra). nra.
  Qed.
  Lemma cosh_double z : 2 * cosh (2 * z) = 4 * (cosh z * cosh z) - 2.
  Proof.
    unfold cosh. assert (exp z * exp (- z) = 1) by (rewrite <- exp_plus, Rplus_opp_r; apply exp_0).
    replace (2 * z) with (z + z) by ring. rewrite exp_plus. replace (- (z + z)) with (- z + - z) by ring. rewrite exp_plus.
    set (p := exp z) in *. set (q := exp (- z)) in *. nra.
  Qed.
  Lemma cosh_half_sinh w : 2 * cosh (2 * w) = 2 + 4 * (sinh w * sinh w).
  Proof.
    unfold cosh, sinh. assert (exp w * exp (- w) = 1) by (rewrite <- exp_plus, Rplus_opp_r; apply exp_0).
    replace (2 * w) with (w + w) by ring. rewrite exp_plus. replace (- (w + w)) with (- w + - w) by ring. rewrite exp_plus.
    set (p := exp w) in *. set (q := exp (- w)) in *. nra.
  Qed.

  Lemma cosh_mult (Y : X -> X -> R) (k : R) : 0 < k ->
    (forall x y, dom x -> dom y -> 2 * cosh (Y x y) = 2 + k * s x y) ->
    forall j c, -1 < c <= 1 -> multiplier dom (fun x y => / (2 * cosh (2 ^ j * Y x y) + 2 * c)).
  Proof.
    intros Hk HY. induction j as [|j IH]; intros c Hc.
    - apply (mult_ext dom (fun x y => / k * / (s x y + (2 + 2 * c) / k))).
      + intros x y Hx Hy. cbn [pow]. rewrite Rmult_1_l, HY by assumption.
        pose proof (proj1 Hs x y Hx Hy). rewrite <- Rinv_mult. f_equal. field. lra.
      + apply mult_scale; [left; now apply Rinv_0_lt_compat|]. apply inverse_mult. apply Rdiv_lt_0_compat; lra.
    - set (e := sqrt ((1 - c) / 2)).
      assert (He : e * e = (1 - c) / 2) by (apply sqrt_sqrt; lra).
      assert (H0 : 0 <= e) by apply sqrt_pos. assert (H1 : e < 1) by nra.
      apply (mult_ext dom (fun x y => / (2 * cosh (2 ^ j * Y x y) + 2 * - e) * / (2 * cosh (2 ^ j * Y x y) + 2 * e))).
      + intros x y _ _. rewrite <- Rinv_mult. f_equal. cbn [pow]. rewrite Rmult_assoc, cosh_double. nra.
      + apply mult_mult; apply IH; lra.
  Qed.

  Lemma arcsinh_cv r : Un_cv (fun j => 2 ^ j * (2 * arcsinh (r / 2 ^ S j))) r.
  Proof.
    destruct (Req_dec r 0) as [->|Hr].
    { intros e He. exists O. intros n _. unfold R_dist. unfold Rdiv. rewrite Rmult_0_l, arcsinh_0, !Rmult_0_r, Rminus_0_r, Rabs_R0.
      exact He. }
    intros e He. pose proof (derivable_pt_lim_arcsinh 0) as D.
    replace (/ sqrt (0 ^ 2 + 1)) with 1 in D by (replace (0 ^ 2 + 1) with 1 by ring; rewrite sqrt_1; field).
    assert (Hr' : 0 < Rabs r) by now apply Rabs_pos_lt.
    destruct (D (e / Rabs r)) as (delta & HD); [now apply Rdiv_lt_0_compat|].
    destruct (pow_lt_1_zero (/ 2) ltac:(rewrite Rabs_right; lra) (delta / Rabs r)) as (N & HN);
      [apply Rdiv_lt_0_compat; [apply cond_pos|exact Hr']|].
    exists N. intros n Hn. unfold R_dist. specialize (HN (S n) ltac:(lia)).
    assert (P : 0 < 2 ^ S n) by (apply pow_lt; lra).
    rewrite <- Rinv_pow, Rabs_right in HN by (try lra; apply Rle_ge; left; now apply Rinv_0_lt_compat).
    assert (Q : Rabs (/ 2 ^ S n) = / 2 ^ S n) by (apply Rabs_right, Rle_ge; left; now apply Rinv_0_lt_compat).
    set (h := r / 2 ^ S n) in *.
    assert (Hh : h <> 0) by (unfold h, Rdiv; apply Rmult_integral_contrapositive_currified; [exact Hr|apply Rinv_neq_0_compat; lra]).
    assert (Hhd : Rabs h < delta).
    { unfold h, Rdiv. rewrite Rabs_mult, Q. apply (Rmult_lt_compat_l (Rabs r)) in HN; [|exact Hr'].
      replace (Rabs r * (delta / Rabs r)) with (pos delta) in HN by (field; lra). exact HN. }
    specialize (HD h Hh Hhd). rewrite Rplus_0_l, arcsinh_0, Rminus_0_r in HD.
    replace (2 ^ n * (2 * arcsinh h) - r) with (r * (arcsinh h / h - 1)).
    - rewrite Rabs_mult. apply (Rmult_lt_compat_l (Rabs r)) in HD; [|exact Hr'].
      replace (Rabs r * (e / Rabs r)) with e in HD by (field; lra). exact HD.
    - unfold h. cbn [pow]. field. split; [apply pow_nonzero; lra|exact Hr].
  Qed.

  Lemma logistic_mult a : 0 < a -> multiplier dom (fun x y => / (exp (a * sqrt (s x y)) + exp (- (a * sqrt (s x y))) + 2)).
  Proof.
    intros Ha.
    apply (mult_limit dom (fun j x y => / (2 * cosh (2 ^ j * (2 * arcsinh (a * sqrt (s x y) / 2 ^ S j))) + 2 * 1))).
    - intros j. apply (cosh_mult (fun x y => 2 * arcsinh (a * sqrt (s x y) / 2 ^ S j)) (4 * (a / 2 ^ S j * (a / 2 ^ S j)))).
      + assert (0 < 2 ^ S j) by (apply pow_lt; lra). assert (0 < a / 2 ^ S j) by now apply Rdiv_lt_0_compat. nra.
      + intros x y Hx Hy. rewrite cosh_half_sinh, sinh_arcsinh. unfold Rdiv.
        pose proof (sqrt_sqrt (s x y) (proj1 Hs x y Hx Hy)) as E. rewrite <- E at 3. ring.
      + lra.
    - intros x y _ _. set (r := a * sqrt (s x y)).
      replace (exp r + exp (- r) + 2) with (2 * cosh r + 2 * 1) by (unfold cosh; field).
      apply (continuity_seq (fun u => / (2 * cosh u + 2 * 1)) (fun j => 2 ^ j * (2 * arcsinh (r / 2 ^ S j)))); [|apply arcsinh_cv].
      apply (continuity_pt_inv (fun u => 2 * cosh u + 2 * 1)).
      + apply derivable_continuous_pt. exists (2 * sinh r + 0).
        apply (derivable_pt_lim_plus (fun u => 2 * cosh u) (fun _ => 2 * 1)); [|apply derivable_pt_lim_const].
        apply (derivable_pt_lim_scal cosh). apply derivable_pt_lim_cosh.
      + pose proof (cosh_pos r). lra.
  Qed.
End Exponentials.

(** ** Distances *)

Lemma square_dist_nonneg x y : 0 <= square_dist x y.
Proof.
  revert y. unfold square_dist. induction x as [|a x IH]; intros [|b y]; cbn [zipw]; try (cbn; lra).
  rewrite sum_cons. specialize (IH y). pose proof (Rle_0_sqr (a - b)) as S. unfold Rsqr in S. lra.
Qed.
Lemma square_dist_exponentials d : exponentials (fun x : vec => length x = d) square_dist.
Proof.
  split; [intros; apply square_dist_nonneg|]. intros t Ht.
  apply (mult_ext _ (fun x y => exp (- (t * dot x x)) * exp (- (t * dot y y)) * exp (2 * t * dot x y))).
  - intros x y Hx Hy. rewrite <- !exp_plus. f_equal. rewrite square_dist_expand by congruence. ring.
  - apply (mult_mult _ (fun x y => exp (- (t * dot x x)) * exp (- (t * dot y y)))).
    + apply (mult_conj _ (fun x => exp (- (t * dot x x)))).
    + apply (mult_exp _ (fun x y => 2 * t * dot x y)). apply mult_scale; [lra|]. intros f Hf. now apply (psd_dot _ d).
Qed.

Definition absolute_dist (x y : vec) : R := sum (zipw (fun a b => Rabs (a - b)) x y).

(** The absolute difference of one coordinate. *)
Lemma coordinate_exponentials (dom : vec -> Prop) (j : nat) :
  exponentials dom (fun x y => Rabs (nth j x 0 - nth j y 0)).
Proof.
  split; [intros; apply Rabs_pos|].
  intros t Ht.
  apply (mult_ext dom (fun x y => exp (- (t * sqrt ((nth j x 0 - nth j y 0) * (nth j x 0 - nth j y 0)))))).
  - intros x y _ _. now rewrite <- (sqrt_Rsqr_abs (nth j x 0 - nth j y 0)).
  - apply (root_mult dom (fun x y => (nth j x 0 - nth j y 0) * (nth j x 0 - nth j y 0))); [|exact Ht].
    split; [intros; apply Rle_0_sqr|]. intros u Hu.
    apply (mult_ext dom (fun x y => exp (- (u * (nth j x 0 * nth j x 0))) * exp (- (u * (nth j y 0 * nth j y 0))) *
                                    exp (2 * u * (nth j x 0 * nth j y 0)))).
    + intros x y _ _. rewrite <- !exp_plus. f_equal. ring.
    + apply (mult_mult dom (fun x y => exp (- (u * (nth j x 0 * nth j x 0))) * exp (- (u * (nth j y 0 * nth j y 0))))).
      * apply (mult_conj dom (fun x => exp (- (u * (nth j x 0 * nth j x 0))))).
      * apply (mult_exp dom (fun x y => 2 * u * (nth j x 0 * nth j y 0))). apply mult_scale; [lra|].
        apply (mult_conj dom (fun x => nth j x 0)).
Qed.
Lemma sum_exponentials {X} (dom : X -> Prop) (f : nat -> X -> X -> R) l :
  (forall j, exponentials dom (f j)) -> exponentials dom (fun x y => sum (map (fun j => f j x y) l)).
Proof.
  intros H. split.
  - intros x y Hx Hy. induction l as [|j l IH]; [apply Rle_refl|]. cbn [map]. rewrite sum_cons.
    pose proof (proj1 (H j) x y Hx Hy). lra.
  - intros t Ht. induction l as [|j l IH].
    + apply (mult_ext dom (fun _ _ => 1)); [|apply mult_const; lra]. intros. cbn. rewrite Rmult_0_r, Ropp_0. now rewrite exp_0.
    + apply (mult_ext dom (fun x y => exp (- (t * f j x y)) * exp (- (t * sum (map (fun j => f j x y) l))))).
      * intros x y _ _. cbn [map]. rewrite sum_cons, <- exp_plus. f_equal. ring.
      * apply (mult_mult dom (fun x y => exp (- (t * f j x y)))); [now apply (proj2 (H j))|exact IH].
Qed.
Lemma absolute_dist_coordinates d x y : length x = d -> length y = d ->
  absolute_dist x y = sum (map (fun j => Rabs (nth j x 0 - nth j y 0)) (seq 0 d)).
Proof.
  unfold absolute_dist. revert x y. induction d as [|d IH]; intros [|a x] [|b y] Hx Hy; try discriminate; [reflexivity|].
  injection Hx as Hx. injection Hy as Hy. cbn [zipw seq map]. rewrite !sum_cons, IH by assumption. f_equal.
  rewrite <- seq_shift, map_map. reflexivity.
Qed.
Lemma absolute_dist_exponentials d : exponentials (fun x : vec => length x = d) absolute_dist.
Proof.
  destruct (sum_exponentials (fun x : vec => length x = d) (fun j x y => Rabs (nth j x 0 - nth j y 0)) (seq 0 d)
              (coordinate_exponentials _)) as [H0 He].
  split.
  - intros x y Hx Hy. rewrite (absolute_dist_coordinates d) by assumption. now apply H0.
  - intros t Ht. refine (mult_ext _ _ _ _ (He t Ht)). intros x y Hx Hy. now rewrite (absolute_dist_coordinates d).
Qed.

(** ** Exponential and logistic kernels *)

Lemma over_value sigma r : sigma <> 0 -> over sigma r = Fin (1 / sigma * r).
Proof. intros H. unfold over. destruct (Req_EM_T sigma 0); [contradiction|reflexivity]. Qed.
Lemma euclidean_sigma sigma x y : sigma <> 0 ->
  dist_sigma Euclidean sigma x y = Ok (Fin (/ Rabs sigma * sqrt (square_dist x y))).
Proof.
  intros H. cbn [dist_sigma square_dist_sigma bind]. destruct (Req_EM_T sigma 0); [contradiction|]. cbn [fl_sqrt]. do 2 f_equal.
  rewrite sqrt_mult_alt by apply Rle_0_sqr || (assert (P : 0 <= 1 / sigma * (1 / sigma)) by nra; exact P). f_equal.
  change (1 / sigma * (1 / sigma)) with (Rsqr (1 / sigma)). rewrite sqrt_Rsqr_abs. unfold Rdiv. rewrite Rmult_1_l.
  now apply Rabs_Rinv.
Qed.

Theorem laplacian_psd sigma d : sigma <> 0 ->
  exists f, (forall x y, laplacian sigma x y = Ok (Fin (f x y))) /\ psd_on (fun x => length x = d) f.
Proof.
  intros Hs. exists (fun x y => exp (- (sqrt (1 / 2) * / Rabs sigma * sqrt (square_dist x y)))). split.
  - intros x y. unfold laplacian, kvalue. rewrite euclidean_sigma by exact Hs. cbn [bind profile]. do 3 f_equal. ring.
  - apply mult_psd. apply (root_mult _ _ (square_dist_exponentials d)).
    apply Rmult_le_pos; [apply sqrt_pos|]. left. now apply Rinv_0_lt_compat, Rabs_pos_lt.
Qed.
Theorem manhattan_psd sigma d : 0 < sigma ->
  exists f, (forall x y, kvalue (Exponential false) Manhattan sigma x y = Ok (Fin (f x y))) /\ psd_on (fun x => length x = d) f.
Proof.
  intros Hs. exists (fun x y => exp (- (sqrt (1 / 2) * / sigma * absolute_dist x y))). split.
  - intros x y. unfold kvalue. cbn [dist_sigma dist bind]. rewrite over_value by lra. cbn [profile]. do 3 f_equal.
    unfold absolute_dist, Rdiv. ring.
  - apply mult_psd. apply (absolute_dist_exponentials d).
    apply Rmult_le_pos; [apply sqrt_pos|]. left. now apply Rinv_0_lt_compat.
Qed.
Theorem logistic_psd sigma d : sigma <> 0 ->
  exists f, (forall x y, kvalue Logistic Euclidean sigma x y = Ok (Fin (f x y))) /\ psd_on (fun x => length x = d) f.
Proof.
  intros Hs. assert (P : 0 < / Rabs sigma) by now apply Rinv_0_lt_compat, Rabs_pos_lt.
  exists (fun x y => 4 * / (exp (/ Rabs sigma * sqrt (square_dist x y)) + exp (- (/ Rabs sigma * sqrt (square_dist x y))) + 2)).
  split.
  - intros x y. unfold kvalue. rewrite euclidean_sigma by exact Hs. cbn [bind profile]. reflexivity.
  - apply mult_psd. apply mult_scale; [lra|]. now apply (logistic_mult _ _ (square_dist_exponentials d)).
Qed.
