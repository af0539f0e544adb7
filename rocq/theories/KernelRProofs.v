(** Distances and distance kernels: proofs. *)
From Coq Require Import Permutation.
From Verif Require Import Base Beautify RVec RVecProofs KernelR KernelRSpec Psd.
Open Scope R_scope.

(** * Distances *)

Definition absdiff (x y : vec) : vec := zipw (fun a b => Rabs (a - b)) x y.
Definition diff (x y : vec) : vec := zipw Rminus x y.

Lemma absdiff_comm x y : absdiff x y = absdiff y x.
Proof. apply zipw_comm. intros a b. apply Rabs_minus_sym. Qed.
Lemma absdiff_nonneg x y : Forall (fun a => 0 <= a) (absdiff x y).
Proof. revert y. induction x as [|a x IH]; intros [|b y]; cbn; constructor; [apply Rabs_pos|apply IH]. Qed.
Lemma absdiff_self x : Forall (fun a => a = 0) (absdiff x x).
Proof. induction x as [|a x IH]; cbn; constructor; [rewrite Rminus_diag_eq by reflexivity; apply Rabs_R0|exact IH]. Qed.
Lemma absdiff_zero x y : length x = length y -> Forall (fun a => a = 0) (absdiff x y) -> x = y.
Proof.
  revert y. induction x as [|a x IH]; intros [|b y] H F; try discriminate H; [reflexivity|].
  apply Forall_cons_iff in F. destruct F as [F0 F1]. f_equal; [|apply IH; [now injection H|exact F1]].
  destruct (Req_dec (a - b) 0) as [E|E]; [lra|]. exfalso. exact (Rabs_no_R0 _ E F0).
Qed.
Lemma square_dist_dot x y : square_dist x y = dot (diff x y) (diff x y).
Proof.
  revert y. unfold square_dist, diff. induction x as [|a x IH]; intros [|b y]; try reflexivity.
  cbn [zipw]. rewrite sum_cons, dot_cons, IH. reflexivity.
Qed.
Lemma square_dist_comm x y : square_dist x y = square_dist y x.
Proof. unfold square_dist. f_equal. apply zipw_comm. intros; ring. Qed.
Lemma square_dist_nonneg x y : 0 <= square_dist x y.
Proof. rewrite square_dist_dot. apply dot_self_nonneg. Qed.
Lemma square_dist_self x : square_dist x x = 0.
Proof. unfold square_dist. induction x as [|a x IH]; [reflexivity|]. cbn [zipw]. rewrite sum_cons, IH. ring. Qed.
Lemma square_dist_zero x y : length x = length y -> square_dist x y = 0 -> x = y.
Proof.
  intros Hl H. rewrite square_dist_dot in H. apply dot_self_zero in H. revert y Hl H. unfold diff.
  induction x as [|a x IH]; intros [|b y] Hl F; try discriminate Hl; [reflexivity|].
  apply Forall_cons_iff in F. destruct F as [F0 F1]. f_equal; [lra|]. apply IH; [now injection Hl|exact F1].
Qed.
Lemma diff_length x y : length x = length y -> length (diff x y) = length x.
Proof. revert y. unfold diff. induction x as [|a x IH]; intros [|b y] H; try discriminate H; cbn; [reflexivity|]. now rewrite IH by (now injection H). Qed.
Lemma diff_triangle x y z : length x = length y -> length y = length z ->
  diff x z = zipw Rplus (diff x y) (diff y z).
Proof.
  revert y z. unfold diff. induction x as [|a x IH]; intros [|b y] [|c z] H1 H2; try discriminate H1; try discriminate H2; [reflexivity|].
  cbn [zipw]. f_equal; [ring|]. apply IH; [now injection H1|now injection H2].
Qed.
Lemma norm_triangle a b : length a = length b -> norm (zipw Rplus a b) <= norm a + norm b.
Proof.
  intros H. apply Rsqr_incr_0_var; [|pose proof (norm_nonneg a); pose proof (norm_nonneg b); lra].
  unfold Rsqr. rewrite norm_sqr.
  rewrite dot_zipw_plus_l, (dot_comm a), (dot_comm b), !dot_zipw_plus_l by exact H.
  pose proof (norm_sqr a) as Ea. pose proof (norm_sqr b) as Eb. pose proof (dot_le_norms a b H) as C.
  pose proof (Rle_abs (dot a b)) as L. rewrite (dot_comm b a). nra.
Qed.

Lemma lmax_nonneg l : Forall (fun a => 0 <= a) l -> 0 <= lmax l.
Proof.
  intros F. destruct l as [|a l]; [cbn; lra|].
  exact (proj1 (Forall_forall _ _) F _ (lmax_In (a :: l) ltac:(discriminate))).
Qed.
Lemma lmax_zero l : Forall (fun a => a = 0) l -> lmax l = 0.
Proof.
  intros F. destruct l as [|a l]; [reflexivity|].
  exact (proj1 (Forall_forall _ _) F _ (lmax_In (a :: l) ltac:(discriminate))).
Qed.
Lemma lmax_all_zero l : Forall (fun a => 0 <= a) l -> lmax l = 0 -> Forall (fun a => a = 0) l.
Proof.
  intros F E. apply Forall_forall. intros a Ha. pose proof (lmax_ge l a Ha) as H1.
  pose proof (proj1 (Forall_forall _ _) F a Ha) as H2. cbn in H2. lra.
Qed.
Lemma sum_zero l : Forall (fun a => a = 0) l -> sum l = 0.
Proof. induction 1 as [|a l H _ IH]; [reflexivity|]. rewrite sum_cons, H, IH. ring. Qed.

Lemma absdiff_triangle x y z : length x = length y -> length y = length z ->
  forall c, In c (absdiff x z) -> exists a b, In a (absdiff x y) /\ In b (absdiff y z) /\ c <= a + b.
Proof.
  revert y z. induction x as [|a x IH]; intros [|b y] [|c z] H1 H2; try discriminate H1; try discriminate H2; [intros ? []|].
  intros e [<-|He].
  - exists (Rabs (a - b)), (Rabs (b - c)). split; [now left|]. split; [now left|].
    replace (a - c) with ((a - b) + (b - c)) by ring. apply Rabs_triang.
  - destruct (IH y z ltac:(now injection H1) ltac:(now injection H2) e He) as (u & v & Hu & Hv & L).
    exists u, v. split; [now right|]. split; [now right|exact L].
Qed.
Lemma sum_absdiff_triangle x y z : length x = length y -> length y = length z ->
  sum (absdiff x z) <= sum (absdiff x y) + sum (absdiff y z).
Proof.
  revert y z. induction x as [|a x IH]; intros [|b y] [|c z] H1 H2; try discriminate H1; try discriminate H2; [cbn; lra|].
  cbn [absdiff zipw]. fold (absdiff x z) (absdiff x y) (absdiff y z). rewrite !sum_cons.
  specialize (IH y z ltac:(now injection H1) ltac:(now injection H2)).
  pose proof (Rabs_triang (a - b) (b - c)) as T. replace (a - b + (b - c)) with (a - c) in T by ring. lra.
Qed.
Lemma lmax_absdiff_triangle x y z : length x = length y -> length y = length z ->
  lmax (absdiff x z) <= lmax (absdiff x y) + lmax (absdiff y z).
Proof.
  intros H1 H2. destruct (absdiff x z) as [|e l] eqn:E.
  - pose proof (lmax_nonneg _ (absdiff_nonneg x y)) as A. pose proof (lmax_nonneg _ (absdiff_nonneg y z)) as B.
    cbn [lmax]. lra.
  - pose proof (lmax_In (e :: l) ltac:(discriminate)) as I. rewrite <- E in I at 2.
    destruct (absdiff_triangle x y z H1 H2 _ I) as (a & b & Ha & Hb & L).
    pose proof (lmax_ge _ _ Ha). pose proof (lmax_ge _ _ Hb). lra.
Qed.

(** The value of an offered distance. *)
Definition dval (d : distance) (x y : vec) : R :=
  match d with
  | Manhattan => sum (absdiff x y)
  | Chebyshev => lmax (absdiff x y)
  | _ => sqrt (square_dist x y)
  end.
Lemma dist_dval d x y : offered d -> dist d x y = Ok (dval d x y).
Proof. destruct d; intros H; [reflexivity..|destruct H]. Qed.
Lemma dval_comm d x y : dval d x y = dval d y x.
Proof. destruct d; cbn; rewrite ?(square_dist_comm x y), ?(absdiff_comm x y); reflexivity. Qed.
Lemma dval_nonneg d x y : 0 <= dval d x y.
Proof.
  destruct d; cbn; [apply sqrt_pos|apply lmax_nonneg, absdiff_nonneg|apply sum_nonneg, absdiff_nonneg|apply sqrt_pos].
Qed.
Lemma dval_self d x : dval d x x = 0.
Proof.
  destruct d; cbn; rewrite ?square_dist_self, ?sqrt_0; [reflexivity| | |reflexivity];
    [apply lmax_zero, absdiff_self|apply sum_zero, absdiff_self].
Qed.
Lemma dval_zero d x y : length x = length y -> dval d x y = 0 -> x = y.
Proof.
  intros Hl H. destruct d; cbn in H.
  - apply square_dist_zero; [exact Hl|]. apply sqrt_eq_0; [apply square_dist_nonneg|exact H].
  - apply absdiff_zero; [exact Hl|]. apply lmax_all_zero; [apply absdiff_nonneg|exact H].
  - apply absdiff_zero; [exact Hl|]. apply sum_zero_nonneg; [apply absdiff_nonneg|exact H].
  - apply square_dist_zero; [exact Hl|]. apply sqrt_eq_0; [apply square_dist_nonneg|exact H].
Qed.
Lemma dval_triangle d x y z : length x = length y -> length y = length z -> dval d x z <= dval d x y + dval d y z.
Proof.
  intros H1 H2.
  assert (E : sqrt (square_dist x z) <= sqrt (square_dist x y) + sqrt (square_dist y z)).
  { rewrite !square_dist_dot. fold (norm (diff x z)) (norm (diff x y)) (norm (diff y z)).
    rewrite (diff_triangle x y z H1 H2). apply norm_triangle. now rewrite !diff_length. }
  destruct d; cbn; [exact E|now apply lmax_absdiff_triangle|now apply sum_absdiff_triangle|exact E].
Qed.

Theorem distance_is_metric d : offered d ->
  forall x y z, length x = length y -> length y = length z ->
  exists xy yz xz, dist d x y = Ok xy /\ dist d y z = Ok yz /\ dist d x z = Ok xz /\
    dist d y x = Ok xy /\ 0 <= xy /\ (xy = 0 <-> x = y) /\ xz <= xy + yz.
Proof.
  intros Ho x y z H1 H2. exists (dval d x y), (dval d y z), (dval d x z). rewrite !(dist_dval d) by exact Ho.
  split; [reflexivity|]. split; [reflexivity|]. split; [reflexivity|].
  split; [now rewrite dval_comm|]. split; [apply dval_nonneg|].
  split; [|now apply dval_triangle]. split; [now apply dval_zero|]. intros ->. apply dval_self.
Qed.

Theorem minkowski_raises p x y : dist (Minkowski p) x y = Err EAttributeError.
Proof. reflexivity. Qed.

(** The Euclidean distance never exceeds the Manhattan one and is never below the
    Chebyshev one. *)
Lemma square_le_sum_sqr l : Forall (fun a => 0 <= a) l -> sum (map (fun a => a * a) l) <= sum l * sum l.
Proof.
  induction 1 as [|a l Ha Hl IH]; [cbn; lra|]. cbn [map]. rewrite !sum_cons. pose proof (sum_nonneg l Hl). nra.
Qed.
Lemma square_dist_absdiff x y : square_dist x y = sum (map (fun a => a * a) (absdiff x y)).
Proof.
  revert y. unfold square_dist, absdiff. induction x as [|a x IH]; intros [|b y]; try reflexivity.
  cbn [zipw map]. rewrite !sum_cons, IH. f_equal.
  pose proof (Rsqr_abs (a - b)) as E. unfold Rsqr in E. lra.
Qed.
Lemma dval_euclidean_manhattan x y : dval Euclidean x y <= dval Manhattan x y.
Proof.
  cbn. apply Rsqr_incr_0_var; [|apply sum_nonneg, absdiff_nonneg]. rewrite Rsqr_sqrt by apply square_dist_nonneg.
  rewrite square_dist_absdiff. apply square_le_sum_sqr, absdiff_nonneg.
Qed.
Lemma in_le_sum l a : Forall (fun a => 0 <= a) l -> In a l -> a <= sum l.
Proof.
  induction 1 as [|b l Hb Hl IH]; [intros []|]. rewrite sum_cons. pose proof (sum_nonneg l Hl).
  intros [<-|I]; [lra|]. specialize (IH I). lra.
Qed.
Lemma dval_chebyshev_euclidean x y : dval Chebyshev x y <= dval Euclidean x y.
Proof.
  cbn. destruct (absdiff x y) as [|e l] eqn:E; [cbn; apply sqrt_pos|]. rewrite <- E.
  assert (I : In (lmax (absdiff x y)) (absdiff x y)) by (apply lmax_In; rewrite E; discriminate).
  apply Rsqr_incr_0_var; [|apply sqrt_pos]. rewrite Rsqr_sqrt by apply square_dist_nonneg.
  rewrite square_dist_absdiff. unfold Rsqr.
  apply (in_le_sum (map (fun a => a * a) (absdiff x y)) (lmax (absdiff x y) * lmax (absdiff x y))).
  - apply Forall_map. apply Forall_forall. intros; nra.
  - exact (in_map (fun a => a * a) _ _ I).
Qed.
Theorem distances_ordered x y :
  exists c e m, dist Chebyshev x y = Ok c /\ dist Euclidean x y = Ok e /\ dist Manhattan x y = Ok m /\ c <= e <= m.
Proof.
  exists (dval Chebyshev x y), (dval Euclidean x y), (dval Manhattan x y).
  split; [reflexivity|]. split; [reflexivity|]. split; [reflexivity|].
  split; [apply dval_chebyshev_euclidean|apply dval_euclidean_manhattan].
Qed.

(** * Kernels *)

(** Profile of a kernel as a function of the distance in bandwidths. *)
Definition shape (k : kern) (t : R) : R :=
  match k with
  | Epanechnikov => if Rle_dec t 1 then 1 - t ^ 2 else 0
  | Quartic => if Rle_dec t 1 then (1 - t ^ 2) ^ 2 else 0
  | Triweight => if Rle_dec t 1 then (1 - t ^ 2) ^ 3 else 0
  | Tricube => if Rle_dec t 1 then (1 - t ^ 3) ^ 3 else 0
  | Triangular => if Rle_dec t 1 then 1 - t else 0
  | Uniform => if Rle_dec t 1 then 1 else 0
  | Logistic => 4 / (exp t + exp (- t) + 2)
  | Silverman => exp (- (sqrt (1 / 2) * t)) * sin (PI / 4 + sqrt (1 / 2) * t)
  | Exponential true => exp (t * t * - (1 / 2))
  | Exponential false => exp (t * - sqrt (1 / 2))
  end.

Lemma over_pos sigma r : 0 < sigma -> over sigma r = Fin (r / sigma).
Proof. intros H. unfold over. destruct (Req_EM_T sigma 0) as [E|_]; [lra|]. f_equal. field. lra. Qed.
Lemma dist_sigma_value d sigma x y : offered d -> 0 < sigma -> dist_sigma d sigma x y = Ok (Fin (dval d x y / sigma)).
Proof.
  intros Ho Hs. destruct d; try (destruct Ho); cbn [dist_sigma].
  - cbn [square_dist_sigma bind]. destruct (Req_EM_T sigma 0) as [E|_]; [lra|]. cbn [fl_sqrt dval]. do 2 f_equal.
    assert (P : 0 < 1 / sigma) by (apply Rdiv_lt_0_compat; lra).
    rewrite sqrt_mult, sqrt_square; [field; lra|lra|nra|apply square_dist_nonneg].
  - cbn [dist bind]. now rewrite over_pos.
  - cbn [dist bind]. now rewrite over_pos.
Qed.
Lemma square_dist_sigma_value d sigma x y : offered d -> 0 < sigma ->
  square_dist_sigma d sigma x y = Ok (Fin (dval d x y / sigma * (dval d x y / sigma))).
Proof.
  intros Ho Hs. destruct d; try (destruct Ho); cbn [square_dist_sigma].
  - destruct (Req_EM_T sigma 0) as [E|_]; [lra|]. cbn [dval]. do 2 f_equal.
    pose proof (sqrt_sqrt _ (square_dist_nonneg x y)) as S.
    transitivity ((sqrt (square_dist x y) * sqrt (square_dist x y)) / (sigma * sigma)); [rewrite S; field; lra|field; lra].
  - cbn [dist bind]. now rewrite over_pos.
  - cbn [dist bind]. now rewrite over_pos.
Qed.
Lemma kvalue_shape k d sigma x y : offered d -> 0 < sigma ->
  kvalue k d sigma x y = Ok (Fin (shape k (dval d x y / sigma))).
Proof.
  intros Ho Hs. unfold kvalue.
  destruct k as [| | | | | | | |[|]]; rewrite ?dist_sigma_value, ?square_dist_sigma_value by assumption; reflexivity.
Qed.

Lemma pow_mono_le a b n : 0 <= a -> a <= b -> a ^ n <= b ^ n.
Proof. intros Ha Hab. apply pow_incr. lra. Qed.
Lemma pow_unit a n : 0 <= a <= 1 -> 0 <= a ^ n <= 1.
Proof. intros [H0 H1]. split; [now apply pow_le|]. rewrite <- (pow1 n). apply pow_incr. lra. Qed.

Lemma cosh_mono s t : 0 <= s -> s <= t -> exp s + exp (- s) <= exp t + exp (- t).
Proof.
  intros Hs Hst. set (a := exp s). set (b := exp t). rewrite !exp_Ropp. fold a b.
  assert (Ha : 1 <= a) by (unfold a; rewrite <- exp_0; destruct Hs as [Hs|Hs];
    [left; now apply exp_increasing|rewrite <- Hs; lra]).
  assert (Hab : a <= b) by (unfold a, b; destruct Hst as [H|H]; [left; now apply exp_increasing|rewrite H; lra]).
  assert (E : b + / b - (a + / a) = (b - a) * (a * b - 1) / (a * b)) by (field; lra).
  assert (0 <= (b - a) * (a * b - 1) / (a * b)).
  { apply Rmult_le_pos; [apply Rmult_le_pos; nra|]. left. apply Rinv_0_lt_compat. nra. }
  lra.
Qed.
Lemma exp_mono s t : s <= t -> exp s <= exp t.
Proof. intros [H|H]; [left; now apply exp_increasing|rewrite H; lra]. Qed.
Lemma sqrt_half_pos : 0 < sqrt (1 / 2).
Proof. apply sqrt_lt_R0. lra. Qed.

Lemma shape_zero k : similarity k -> shape k 0 = 1.
Proof.
  intros H. destruct k as [| | | | | | | |[|]]; cbn [shape];
    try (destruct (Rle_dec 0 1) as [_|N]; [ring|exfalso; lra]); try (now destruct (H eq_refl)).
  - rewrite Ropp_0, exp_0. field.
  - rewrite !Rmult_0_l, exp_0. reflexivity.
  - rewrite Rmult_0_l, exp_0. reflexivity.
Qed.
Lemma shape_decreasing k s t : similarity k -> 0 <= s -> s <= t -> shape k t <= shape k s.
Proof.
  intros H Hs Hst.
  assert (W : forall f : R -> R, (forall u v, 0 <= u -> u <= v -> v <= 1 -> f v <= f u) -> (forall u, 0 <= u <= 1 -> 0 <= f u) ->
    (if Rle_dec t 1 then f t else 0) <= (if Rle_dec s 1 then f s else 0)).
  { intros f Hf Hp. destruct (Rle_dec t 1) as [Ht|Ht], (Rle_dec s 1) as [Hs1|Hs1]; [now apply Hf|exfalso; lra|apply Hp; lra|lra]. }
  assert (Q : forall n m u v, 0 <= u -> u <= v -> v <= 1 -> (1 - v ^ n) ^ m <= (1 - u ^ n) ^ m).
  { intros n m u v Hu Huv Hv. pose proof (pow_unit v n ltac:(lra)). pose proof (pow_mono_le u v n Hu Huv).
    apply pow_mono_le; lra. }
  assert (P : forall n m u, 0 <= u <= 1 -> 0 <= (1 - u ^ n) ^ m).
  { intros n m u Hu. pose proof (pow_unit u n Hu). apply pow_le. lra. }
  destruct k as [| | | | | | | |[|]]; cbn [shape].
  - apply (W (fun t => 1 - t ^ 2)).
    + intros u v Hu Huv Hv. specialize (Q 2%nat 1%nat u v Hu Huv Hv). lra.
    + intros u Hu. specialize (P 2%nat 1%nat u Hu). lra.
  - exact (W (fun t => (1 - t ^ 2) ^ 2) (Q 2%nat 2%nat) (P 2%nat 2%nat)).
  - exact (W (fun t => (1 - t ^ 2) ^ 3) (Q 2%nat 3%nat) (P 2%nat 3%nat)).
  - exact (W (fun t => (1 - t ^ 3) ^ 3) (Q 3%nat 3%nat) (P 3%nat 3%nat)).
  - apply (W (fun t => 1 - t)); intros; lra.
  - apply (W (fun _ => 1)); intros; lra.
  - pose proof (cosh_mono s t Hs Hst) as C. pose proof (exp_pos s). pose proof (exp_pos (- s)).
    apply Rmult_le_compat_l; [lra|]. apply Rinv_le_contravar; lra.
  - now destruct (H eq_refl).
  - apply exp_mono. nra.
  - apply exp_mono. pose proof sqrt_half_pos. nra.
Qed.
Lemma shape_nonneg k t : similarity k -> 0 <= t -> 0 <= shape k t.
Proof.
  intros H Ht.
  assert (P : forall n m u, 0 <= u <= 1 -> 0 <= (1 - u ^ n) ^ m).
  { intros n m u Hu. pose proof (pow_unit u n Hu). apply pow_le. lra. }
  destruct k as [| | | | | | | |[|]]; cbn [shape]; try (destruct (Rle_dec t 1) as [L|L]; [|lra]).
  - specialize (P 2%nat 1%nat t ltac:(lra)). lra.
  - apply P; lra.
  - apply P; lra.
  - apply P; lra.
  - lra.
  - lra.
  - pose proof (exp_pos t). pose proof (exp_pos (- t)). apply Rlt_le, Rdiv_lt_0_compat; lra.
  - now destruct (H eq_refl).
  - apply Rlt_le, exp_pos.
  - apply Rlt_le, exp_pos.
Qed.

Theorem similarity_measure k d sigma : similarity k -> offered d -> 0 < sigma ->
  forall x y, exists v, kvalue k d sigma x y = Ok (Fin v) /\ kvalue k d sigma y x = Ok (Fin v) /\
    0 <= v <= 1 /\ kvalue k d sigma x x = Ok (Fin 1).
Proof.
  intros Hk Ho Hs x y. exists (shape k (dval d x y / sigma)).
  assert (P : 0 <= dval d x y / sigma).
  { apply Rmult_le_pos; [apply dval_nonneg|]. left. now apply Rinv_0_lt_compat. }
  split; [now apply kvalue_shape|]. split; [rewrite dval_comm; now apply kvalue_shape|].
  split.
  - split; [now apply shape_nonneg|]. rewrite <- (shape_zero k Hk). now apply shape_decreasing; [exact Hk|lra|].
  - rewrite kvalue_shape, dval_self by assumption. unfold Rdiv. now rewrite Rmult_0_l, shape_zero.
Qed.
Theorem decreasing_with_distance k d sigma : similarity k -> offered d -> 0 < sigma ->
  forall x y x' y' r r' v v', dist d x y = Ok r -> dist d x' y' = Ok r' -> r <= r' ->
    kvalue k d sigma x y = Ok (Fin v) -> kvalue k d sigma x' y' = Ok (Fin v') -> v' <= v.
Proof.
  intros Hk Ho Hs x y x' y' r r' v v' D D' L V V'.
  rewrite dist_dval in D, D' by exact Ho. rewrite kvalue_shape in V, V' by assumption.
  injection D as <-. injection D' as <-. injection V as <-. injection V' as <-.
  pose proof (Rinv_0_lt_compat _ Hs) as I. apply shape_decreasing; [exact Hk| |].
  - apply Rmult_le_pos; [apply dval_nonneg|lra].
  - apply Rmult_le_compat_r; [lra|exact L].
Qed.

(** A negative bandwidth is accepted and makes the triangular kernel exceed one. *)
Theorem negative_bandwidth_not_similarity : kvalue Triangular Manhattan (-1) [0] [1] = Ok (Fin 2).
Proof.
  unfold kvalue. cbn [dist_sigma dist bind zipw sum fold_right]. unfold over.
  destruct (Req_EM_T (-1) 0) as [E|_]; [lra|]. cbn [profile window].
  replace (0 - 1) with (- (1)) by ring. rewrite Rabs_Ropp, Rabs_R1.
  destruct (Rle_dec _ 1) as [_|N]; [|exfalso; apply N; lra]. do 2 f_equal. field.
Qed.

(** * Normalisation *)

Theorem announced_normalised k d sigma : announced k [] = true -> similarity k -> offered d -> 0 < sigma ->
  forall x, kvalue k d sigma x x = Ok (Fin 1).
Proof. intros _ Hk Ho Hs x. destruct (similarity_measure k d sigma Hk Ho Hs x x) as (v & _ & _ & _ & H). exact H. Qed.

Theorem silverman_not_normalised : announced Silverman [] = true /\
  forall d sigma x, offered d -> 0 < sigma -> kvalue Silverman d sigma x x = Ok (Fin (1 / sqrt 2)).
Proof.
  split; [reflexivity|]. intros d sigma x Ho Hs. rewrite kvalue_shape, dval_self by assumption. cbn [shape].
  replace (0 / sigma) with 0 by (field; lra). rewrite Rmult_0_r, Ropp_0, exp_0, Rplus_0_r, sin_PI4, Rmult_1_l. reflexivity.
Qed.
Theorem silverman_value_below_one : 1 / sqrt 2 < 1.
Proof.
  assert (H : 1 < sqrt 2) by (rewrite <- sqrt_1 at 1; apply sqrt_lt_1; lra).
  apply (Rmult_lt_reg_r (sqrt 2)); [lra|]. unfold Rdiv. rewrite Rmult_assoc, Rinv_l by lra. lra.
Qed.

(** * Compact support *)

Theorem compact_support k d sigma : compact k -> offered d -> 0 < sigma ->
  forall x y r, dist d x y = Ok r -> exists v, kvalue k d sigma x y = Ok (Fin v) /\
    (sigma < r -> v = 0) /\ (r < sigma -> 0 < v) /\ (r = sigma -> v = match k with Uniform => 1 | _ => 0 end).
Proof.
  intros Hk Ho Hs x y r D. rewrite dist_dval in D by exact Ho. injection D as <-.
  exists (shape k (dval d x y / sigma)). split; [now apply kvalue_shape|].
  pose proof (dval_nonneg d x y) as P. pose proof (Rinv_0_lt_compat _ Hs) as I. set (r := dval d x y) in *.
  assert (P0 : 0 <= r / sigma) by (apply Rmult_le_pos; lra).
  split; [|split].
  - intros L. assert (1 < r / sigma).
    { apply (Rmult_lt_reg_r sigma); [exact Hs|]. unfold Rdiv. rewrite Rmult_assoc, Rinv_l; lra. }
    destruct k; try (destruct Hk); cbn [shape]; (destruct (Rle_dec (r / sigma) 1) as [N|_]; [exfalso; lra|reflexivity]).
  - intros L. assert (T : r / sigma < 1).
    { apply (Rmult_lt_reg_r sigma); [exact Hs|]. unfold Rdiv. rewrite Rmult_assoc, Rinv_l; lra. }
    set (t := r / sigma) in *. clearbody t.
    assert (T2 : t ^ 2 < 1) by nra. assert (T3 : t ^ 3 < 1) by (cbn; cbn in T2; nra).
    destruct k; try (destruct Hk); cbn [shape]; (destruct (Rle_dec t 1) as [_|N]; [|exfalso; lra]);
      try (apply pow_lt); lra.
  - intros ->. unfold Rdiv. rewrite Rinv_r by lra.
    destruct k; try (destruct Hk); cbn [shape]; (destruct (Rle_dec 1 1) as [_|N]; [|exfalso; lra]); ring.
Qed.

(** * The Gaussian kernel is positive semi-definite *)

Definition rbf_value (sigma : R) (x y : vec) : R := exp (- (square_dist x y / (2 * (sigma * sigma)))).

Lemma rbf_is sigma x y : sigma <> 0 -> rbf sigma x y = Ok (Fin (rbf_value sigma x y)).
Proof.
  intros Hs. unfold rbf, kvalue, rbf_value. cbn [square_dist_sigma bind].
  destruct (Req_EM_T sigma 0) as [E|_]; [contradiction|]. cbn [profile]. do 3 f_equal. field. exact Hs.
Qed.
Lemma square_dist_expand x y : length x = length y -> square_dist x y = dot x x + dot y y - 2 * dot x y.
Proof.
  revert y. unfold square_dist. induction x as [|a x IH]; intros [|b y] H; try discriminate H; [cbn; ring|].
  cbn [zipw]. rewrite !dot_cons, sum_cons, IH by (now injection H). ring.
Qed.
Lemma rbf_value_psd sigma d : sigma <> 0 -> psd_on (fun x => length x = d) (rbf_value sigma).
Proof.
  intros Hs. assert (P : 0 < sigma * sigma) by nra.
  apply (psd_ext _ (fun x y => exp (- (dot x x / (2 * (sigma * sigma)))) * exp (- (dot y y / (2 * (sigma * sigma)))) *
     exp (/ (sigma * sigma) * dot x y))).
  - intros x y Hx Hy. unfold rbf_value. rewrite <- !exp_plus. f_equal. rewrite square_dist_expand by congruence. field. exact Hs.
  - apply (psd_conj _ (fun x => exp (- (dot x x / (2 * (sigma * sigma)))))).
    apply (psd_exp_dot _ d); [left; now apply Rinv_0_lt_compat|]. auto.
Qed.
Theorem rbf_psd sigma d : sigma <> 0 ->
  exists f, (forall x y, rbf sigma x y = Ok (Fin (f x y))) /\ psd_on (fun x => length x = d) f.
Proof.
  intros Hs. exists (rbf_value sigma). split; [|now apply rbf_value_psd]. intros x y. now apply rbf_is.
Qed.

(** * The bandwidth heuristic *)

Lemma insert_perm a l : Permutation (a :: l) (insert a l).
Proof.
  induction l as [|b l IH]; [reflexivity|]. cbn [insert]. destruct (Rle_dec a b); [reflexivity|].
  rewrite perm_swap. now constructor.
Qed.
Lemma sort_perm l : Permutation l (sort l).
Proof. induction l as [|a l IH]; [reflexivity|]. cbn [sort]. rewrite <- insert_perm. now constructor. Qed.
Fixpoint ascending (l : vec) : Prop :=
  match l with [] => True | a :: l' => Forall (fun b => a <= b) l' /\ ascending l' end.
Lemma insert_ascending a l : ascending l -> ascending (insert a l).
Proof.
  induction l as [|b l IH]; intros H; [cbn; auto|]. cbn [insert]. destruct H as [Hb Hl].
  destruct (Rle_dec a b) as [L|L].
  - cbn [ascending]. split; [|now split]. constructor; [exact L|]. eapply Forall_impl; [|exact Hb]. intros c Hc. cbn in Hc. lra.
  - cbn [ascending]. split; [|now apply IH]. apply (Permutation_Forall (insert_perm a l)). constructor; [lra|exact Hb].
Qed.
Lemma sort_ascending l : ascending (sort l).
Proof. induction l as [|a l IH]; [exact I|]. cbn [sort]. now apply insert_ascending. Qed.
Lemma ascending_nth l i j : ascending l -> (i <= j)%nat -> (j < length l)%nat -> nth i l 0 <= nth j l 0.
Proof.
  revert i j. induction l as [|a l IH]; intros i j H Hij Hj; [cbn in Hj; lia|]. destruct H as [Ha Hl].
  destruct j as [|j]; [assert (i = 0)%nat by lia; subst; lra|]. cbn in Hj. destruct i as [|i].
  - cbn [nth]. apply (proj1 (Forall_forall _ _) Ha). apply nth_In. lia.
  - cbn [nth]. apply IH; [exact Hl|lia|lia].
Qed.

(** Number of entries that are zero. *)
Definition zero_b (a : R) : bool := if Req_EM_T a 0 then true else false.
Definition zeros (l : vec) : nat := length (filter zero_b l).
Lemma zeros_perm l m : Permutation l m -> zeros l = zeros m.
Proof.
  unfold zeros. induction 1 as [|a l m _ IH|a b l|l m n _ IH1 _ IH2]; [reflexivity| | |congruence].
  - cbn [filter]. destruct (zero_b a); cbn; now rewrite IH.
  - cbn [filter]. now destruct (zero_b a), (zero_b b).
Qed.
Lemma zeros_app l m : zeros (l ++ m) = (zeros l + zeros m)%nat.
Proof. unfold zeros. now rewrite filter_app, app_length. Qed.

Lemma prefix_zeros l n : ascending l -> Forall (fun a => 0 <= a) l -> (n < length l)%nat -> nth n l 0 = 0 -> (n < zeros l)%nat.
Proof.
  revert n. induction l as [|a l IH]; intros n Ha Hp Hn Hz; [cbn in Hn; lia|]. apply Forall_cons_iff in Hp. destruct Hp as [P0 Hp].
  destruct Ha as [Ha Hl]. cbn in Hn.
  assert (A0 : a = 0).
  { destruct n as [|n]; [exact Hz|]. cbn [nth] in Hz.
    assert (L : a <= nth n l 0) by (apply (proj1 (Forall_forall _ _) Ha), nth_In; lia). lra. }
  unfold zeros. cbn [filter]. unfold zero_b at 1. destruct (Req_EM_T a 0) as [_|N]; [|contradiction].
  cbn [length]. destruct n as [|n]; [lia|]. cbn [nth] in Hz. specialize (IH n Hl Hp ltac:(lia) Hz). unfold zeros in IH. lia.
Qed.
Lemma median_pos l : Forall (fun a => 0 <= a) l -> l <> [] -> (2 * zeros l < length l)%nat -> 0 < median l.
Proof.
  intros Hp Hne Hz. unfold median.
  assert (Hs : Forall (fun a => 0 <= a) (sort l)) by exact (Permutation_Forall (sort_perm l) Hp).
  assert (Hl : length (sort l) = length l) by (symmetry; apply Permutation_length, sort_perm).
  assert (Hn : ((length l - 1) / 2 < length l)%nat).
  { apply Nat.div_lt_upper_bound; [lia|]. destruct l; [contradiction|cbn [length]; lia]. }
  destruct (Req_dec (nth ((length l - 1) / 2) (sort l) 0) 0) as [E|E].
  - exfalso. pose proof (prefix_zeros (sort l) _ (sort_ascending l) Hs ltac:(rewrite Hl; exact Hn) E) as Z.
    rewrite <- (zeros_perm _ _ (sort_perm l)) in Z.
    assert (zeros l <= (length l - 1) / 2)%nat by (apply Nat.div_le_lower_bound; lia). lia.
  - assert (I : In (nth ((length l - 1) / 2) (sort l) 0) (sort l)) by (apply nth_In; rewrite Hl; exact Hn).
    pose proof (proj1 (Forall_forall _ _) Hs _ I) as H0. cbv beta in H0. lra.
Qed.

Lemma pairs_length f s : length (pairs f s) = (length s * length s)%nat.
Proof.
  unfold pairs. enough (G : forall t : mat, length (flat_map (fun a => map (f a) s) t) = (length t * length s)%nat) by apply G.
  induction t as [|a t IH]; [reflexivity|].
  cbn [flat_map length]. rewrite app_length, map_length, IH. reflexivity.
Qed.
Lemma zeros_row f (a : vec) (s : mat) : NoDup s -> (forall b, In b s -> f a b = 0 -> a = b) -> (zeros (map (f a) s) <= 1)%nat.
Proof.
  intros Hn. induction Hn as [|b s Hb Hn IH]; intros H; [cbn; lia|]. cbn [map]. unfold zeros. cbn [filter].
  destruct (zero_b (f a b)) eqn:E; [|apply IH; intros c Hc; apply H; now right].
  unfold zero_b in E. destruct (Req_EM_T (f a b) 0) as [E0|]; [|discriminate E].
  assert (a = b) by (apply H; [now left|exact E0]). subst b. cbn [length].
  replace (filter zero_b (map (f a) s)) with (@nil R); [cbn; lia|]. clear IH E.
  assert (K : forall c, In c s -> f a c <> 0).
  { intros c Hc Z. apply Hb. rewrite (H c (or_intror Hc) Z). exact Hc. }
  clear - K. induction s as [|c s IH]; [reflexivity|]. cbn [map filter]. unfold zero_b at 1.
  destruct (Req_EM_T (f a c) 0) as [Z|_]; [exfalso; exact (K c (or_introl eq_refl) Z)|]. apply IH. intros e He. apply K. now right.
Qed.
Lemma zeros_pairs f s : NoDup s -> (forall a b, In a s -> In b s -> f a b = 0 -> a = b) -> (zeros (pairs f s) <= length s)%nat.
Proof.
  intros Hn H. unfold pairs.
  assert (G : forall t, incl t s -> (zeros (flat_map (fun a => map (f a) s) t) <= length t)%nat); [|apply G; intros a Ha; exact Ha].
  induction t as [|a t IH]; intros Ht; [cbn; lia|]. cbn [flat_map length]. rewrite zeros_app.
  pose proof (zeros_row f a s Hn (fun b Hb => H a b (Ht a (or_introl eq_refl)) Hb)).
  specialize (IH (fun b Hb => Ht b (or_intror Hb))). lia.
Qed.
Lemma pairs_nonneg f s : (forall a b, 0 <= f a b) -> Forall (fun a => 0 <= a) (pairs f s).
Proof.
  intros H. apply Forall_forall. intros v Hv. unfold pairs in Hv. apply in_flat_map in Hv. destruct Hv as (a & _ & Hv).
  apply in_map_iff in Hv. destruct Hv as (b & <- & _). apply H.
Qed.
Lemma median_pairs_pos f s : (3 <= length s)%nat -> NoDup s -> (forall a b, 0 <= f a b) ->
  (forall a b, In a s -> In b s -> f a b = 0 -> a = b) -> 0 < median (pairs f s).
Proof.
  intros H3 Hn Hp Hz. pose proof (pairs_length f s) as L. pose proof (zeros_pairs f s Hn Hz) as Z.
  apply median_pos; [now apply pairs_nonneg| |].
  - intros E. rewrite E in L. cbn in L. nia.
  - nia.
Qed.

Theorem heuristic_positive d s dim : offered d -> (3 <= length s)%nat -> NoDup s -> rect dim s ->
  exists sigma, heuristic d s = Ok sigma /\ 0 < sigma.
Proof.
  intros Ho H3 Hn Hr.
  assert (Hl : forall a b, In a s -> In b s -> length a = length b).
  { intros a b Ha Hb. pose proof (proj1 (Forall_forall _ _) Hr) as K. rewrite (K a Ha), (K b Hb). reflexivity. }
  destruct d; try (destruct Ho); cbn [heuristic]; eexists; (split; [reflexivity|]).
  - apply Rmult_lt_0_compat; [lra|]. apply sqrt_lt_R0. apply median_pairs_pos; try assumption; [apply square_dist_nonneg|].
    intros a b Ha Hb. apply square_dist_zero. now apply Hl.
  - apply Rmult_lt_0_compat; [lra|]. apply median_pairs_pos; try assumption; [exact (dval_nonneg Chebyshev)|].
    intros a b Ha Hb. apply (dval_zero Chebyshev). now apply Hl.
  - apply Rmult_lt_0_compat; [lra|]. apply median_pairs_pos; try assumption; [exact (dval_nonneg Manhattan)|].
    intros a b Ha Hb. apply (dval_zero Manhattan). now apply Hl.
Qed.

(** With one or two points the lower median is one of the zeros of the diagonal. *)
Lemma sort_min l : l <> [] -> nth 0 (sort l) 0 = lmin l.
Proof.
  intros Hne. symmetry. pose proof (sort_perm l) as P. apply lmin_unique.
  - apply (Permutation_in _ (Permutation_sym P)), nth_In. rewrite <- (Permutation_length P). destruct l; [contradiction|cbn; lia].
  - intros x Hx. apply (Permutation_in _ P) in Hx. destruct (In_nth _ _ 0 Hx) as (i & Hi & <-).
    apply ascending_nth; [apply sort_ascending|lia|exact Hi].
Qed.
Lemma ascending_prefix l n : ascending l -> Forall (fun a => 0 <= a) l -> (n < zeros l)%nat -> nth n l 0 = 0.
Proof.
  revert n. induction l as [|a l IH]; intros n Ha Hp Hz; [cbn in Hz; lia|]. apply Forall_cons_iff in Hp. destruct Hp as [P0 Hp].
  destruct Ha as [Ha Hl]. unfold zeros in Hz. cbn [filter] in Hz. unfold zero_b at 1 in Hz.
  destruct (Req_EM_T a 0) as [E|N].
  - destruct n as [|n]; [exact E|]. cbn [nth]. apply IH; [exact Hl|exact Hp|]. cbn in Hz. unfold zeros. lia.
  - exfalso. assert (Z : filter zero_b l = []).
    { clear - Ha N P0. assert (Hpos : 0 < a) by lra. clear N P0. induction l as [|b l IH]; [reflexivity|].
      apply Forall_cons_iff in Ha. destruct Ha as [H0 Ha]. cbn [filter]. unfold zero_b at 1.
      destruct (Req_EM_T b 0) as [E|_]; [lra|]. now apply IH. }
    rewrite Z in Hz. cbn in Hz. lia.
Qed.
Lemma median_zero l : Forall (fun a => 0 <= a) l -> ((length l - 1) / 2 < zeros l)%nat -> median l = 0.
Proof.
  intros Hp Hz. unfold median. apply ascending_prefix; [apply sort_ascending|exact (Permutation_Forall (sort_perm l) Hp)|].
  now rewrite <- (zeros_perm _ _ (sort_perm l)).
Qed.
Lemma zeros_in (l : vec) : zero_b 0 = true.
Proof. unfold zero_b. now destruct (Req_EM_T 0 0). Qed.
Lemma median_pairs_small f s : (1 <= length s <= 2)%nat -> (forall a b, 0 <= f a b) -> (forall a, f a a = 0) ->
  median (pairs f s) = 0.
Proof.
  intros Hl Hp Hz. apply median_zero; [now apply pairs_nonneg|].
  assert (Z : zero_b 0 = true) by exact (zeros_in []).
  destruct s as [|a [|b [|c s]]]; cbn in Hl; try lia; unfold pairs; cbn [flat_map map app]; rewrite !Hz; unfold zeros;
    cbn [filter length]; rewrite Z; cbn [length Nat.sub].
  - cbn. lia.
  - change (3 / 2)%nat with 1%nat. destruct (zero_b (f a b)), (zero_b (f b a)); cbn; lia.
Qed.
Theorem heuristic_small d s : offered d -> (1 <= length s <= 2)%nat -> heuristic d s = Ok 0.
Proof.
  intros Ho Hl. destruct d; try (destruct Ho); cbn [heuristic]; f_equal.
  - rewrite median_pairs_small; [rewrite sqrt_0; ring|exact Hl|apply square_dist_nonneg|apply square_dist_self].
  - rewrite median_pairs_small; [ring|exact Hl|exact (dval_nonneg Chebyshev)|exact (dval_self Chebyshev)].
  - rewrite median_pairs_small; [ring|exact Hl|exact (dval_nonneg Manhattan)|exact (dval_self Manhattan)].
Qed.
Theorem zero_bandwidth_nan d x : offered d -> kvalue (Exponential true) d 0 x x = Ok NaN.
Proof.
  intros Ho. unfold kvalue. destruct d; try (destruct Ho); cbn [square_dist_sigma dist bind].
  - destruct (Req_EM_T 0 0) as [_|N]; [|contradiction]. unfold over. rewrite square_dist_self.
    destruct (Req_EM_T 0 0) as [_|N]; [reflexivity|contradiction].
  - change (lmax _) with (dval Chebyshev x x). rewrite dval_self. unfold over.
    destruct (Req_EM_T 0 0) as [_|N]; [reflexivity|contradiction].
  - change (sum _) with (dval Manhattan x x). rewrite dval_self. unfold over.
    destruct (Req_EM_T 0 0) as [_|N]; [reflexivity|contradiction].
Qed.

(** * Documented formulas *)

Lemma nth_absdiff x y i : length x = length y -> (i < length x)%nat -> nth i (absdiff x y) 0 = Rabs (nth i x 0 - nth i y 0).
Proof.
  revert y i. induction x as [|a x IH]; intros [|b y] i E L; cbn in E, L; try lia.
  destruct i as [|i]; [reflexivity|]. cbn [nth absdiff zipw]. apply IH; lia.
Qed.
Lemma absdiff_length x y : length x = length y -> length (absdiff x y) = length x.
Proof. revert y. induction x as [|a x IH]; intros [|b y] E; cbn in *; try lia. rewrite IH; lia. Qed.
Lemma is_distance_dval d x y r : length x = length y -> is_distance d x y r -> offered d /\ dval d x y = r.
Proof.
  intros L H. destruct H as [x y r P E|x y|x y r B (i & Hi & E)]; (split; [exact I|]).
  - cbn [dval]. replace (square_dist x y) with (r ^ 2).
    + replace (r ^ 2) with (r * r) by ring. now apply sqrt_square.
    + rewrite E. unfold square_dist. clear. revert y. induction x as [|a x IH]; intros [|b y]; try reflexivity.
      cbn [zipw]. rewrite !sum_cons, IH. ring.
  - reflexivity.
  - cbn [dval]. apply lmax_unique.
    + rewrite E, <- nth_absdiff by assumption. apply nth_In. now rewrite absdiff_length.
    + intros v Hv. apply (In_nth _ _ 0) in Hv as (j & Hj & <-). rewrite absdiff_length in Hj by exact L.
      rewrite nth_absdiff by assumption. now apply B.
Qed.
Lemma sqrt_half : sqrt (1 / 2) = 1 / sqrt 2.
Proof. rewrite sqrt_div_alt by lra. now rewrite sqrt_1. Qed.
Theorem documented_values k d sigma x y r : length x = length y -> 0 < sigma -> is_distance d x y r ->
  kvalue k d sigma x y = Ok (Fin (documented_kernel k sigma r)).
Proof.
  intros L Hs D. destruct (is_distance_dval d x y r L D) as (Ho & E). rewrite kvalue_shape by assumption. rewrite E.
  assert (P : 0 <= r) by (rewrite <- E; apply dval_nonneg).
  assert (S : 0 < sqrt 2) by (apply sqrt_lt_R0; lra).
  do 2 f_equal. destruct k as [| | | | | | | |[|]]; cbn [shape documented_kernel]; try reflexivity.
  - rewrite (Rabs_right r) by lra. reflexivity.
  - replace (- r / sigma) with (- (r / sigma)) by (field; lra). f_equal. ring.
  - rewrite sqrt_half. f_equal; [|rewrite Rplus_comm]; f_equal; [f_equal|f_equal]; field; lra.
  - f_equal. field. lra.
  - rewrite sqrt_half. f_equal. field. lra.
Qed.
Theorem distance_exists d x y : offered d -> x <> [] -> length x = length y -> exists r, is_distance d x y r.
Proof.
  intros Ho N L. destruct d; try (destruct Ho).
  - exists (sqrt (square_dist x y)). constructor; [apply sqrt_pos|]. replace (sqrt (square_dist x y) ^ 2) with (sqrt (square_dist x y) * sqrt (square_dist x y)) by ring.
    rewrite sqrt_sqrt by apply square_dist_nonneg. unfold square_dist. clear. revert y.
    induction x as [|a x IH]; intros [|b y]; try reflexivity. cbn [zipw]. rewrite !sum_cons, IH. ring.
  - exists (lmax (absdiff x y)). pose proof (absdiff_length x y L) as AL. constructor.
    + intros i Hi. rewrite <- nth_absdiff by assumption. apply lmax_ge, nth_In. now rewrite AL.
    + assert (A : absdiff x y <> []) by (intros A; rewrite A in AL; destruct x; [now apply N|discriminate AL]).
      pose proof (lmax_In _ A) as I. apply (In_nth _ _ 0) in I as (j & Hj & E). rewrite AL in Hj. exists j. split; [exact Hj|].
      rewrite <- E. now apply nth_absdiff.
  - eexists. constructor.
Qed.
