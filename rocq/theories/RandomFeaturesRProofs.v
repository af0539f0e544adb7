(** Random features: proofs. *)
From Verif Require Import Base RVec RVecProofs KernelR KernelRSpec Psd KernelRProofs RandomFeaturesR RandomFeaturesRSpec.
Open Scope R_scope.

(** * Activations and inverses *)


Lemma pos_spec v : pos v = true <-> 0 < v.
Proof. unfold pos. destruct (Rlt_dec 0 v); split; try discriminate; auto; contradiction. Qed.
Theorem hyper_init_admissible alpha gamma delta beta h : hyper_init alpha gamma delta beta = Ok h -> admissible (Hyperbola h).
Proof.
  unfold hyper_init, set_alpha. destruct (pos alpha) eqn:Ea; [|discriminate]. cbn [bind]. unfold set_gamma.
  destruct (pos gamma) eqn:Eg; [|discriminate]. cbn [bind]. unfold set_delta. destruct (pos delta) eqn:Ed; [|discriminate].
  cbn [bind h_alpha h_beta h_gamma h_delta]. unfold set_beta. cbn [h_alpha h_beta h_gamma h_delta].
  destruct (pos beta && _)%bool eqn:Eb; [|discriminate]. intros E. injection E as <-.
  apply Bool.andb_true_iff in Eb. destruct Eb as [Eb1 Eb2]. apply pos_spec in Ea, Eg, Ed, Eb1, Eb2. cbn. cbn in Eb2.
  split; [exact Ea|]. split; [exact Eg|]. split; [exact Ed|]. split; [exact Eb1|lra].
Qed.

Lemma hyperbola_value h x : admissible (Hyperbola h) ->
  hyperbola h x = Some (1 / h_gamma h *
    (sqrt ((h_beta h ^ 2 - h_gamma h * h_alpha h) * x ^ 2 + h_gamma h * h_delta h) + h_beta h * x)).
Proof.
  intros (Ha & Hg & Hd & Hb & Hq). unfold hyperbola, sqrt_nan. destruct (Rlt_dec _ 0) as [N|_]; [exfalso|reflexivity].
  assert (0 < h_gamma h * h_delta h) by now apply Rmult_lt_0_compat.
  assert (0 <= (h_beta h ^ 2 - h_gamma h * h_alpha h) * x ^ 2); [|lra]. apply Rmult_le_pos; [lra|apply pow2_ge_0].
Qed.
(** The branch of the hyperbola: if [r^2 = (b^2 - ga) x^2 + gd] then for
    [y = (r + b x) / g] the other root is that of the inverse. *)
Lemma hyperbola_branch a b g d x : 0 < a -> 0 < g -> 0 < d -> 0 < b -> a * g < b ^ 2 ->
  let y := 1 / g * (sqrt ((b ^ 2 - g * a) * x ^ 2 + g * d) + b * x) in
  sqrt ((b ^ 2 - g * a) * y ^ 2 + a * d) = b * y - a * x.
Proof.
  intros Ha Hg Hd Hb Hq y. set (D := b ^ 2 - g * a) in *. assert (HD : 0 < D) by (unfold D; lra).
  assert (Hgd : 0 < g * d) by now apply Rmult_lt_0_compat.
  assert (HR : 0 <= D * x ^ 2 + g * d) by (pose proof (pow2_ge_0 x); nra).
  set (r := sqrt (D * x ^ 2 + g * d)) in *. pose proof (sqrt_sqrt _ HR) as Hr. fold r in Hr. pose proof (sqrt_pos (D * x ^ 2 + g * d)) as Hp. fold r in Hp.
  assert (Hy : g * y = r + b * x) by (unfold y; field; lra).
  assert (Hpos : 0 <= b * y - a * x).
  { apply (Rmult_le_reg_l g); [exact Hg|]. rewrite Rmult_0_r.
    replace (g * (b * y - a * x)) with (b * r + D * x) by (unfold D; replace (g * (b * y - a * x)) with (b * (g * y) - a * g * x) by ring; rewrite Hy; ring).
    destruct (Rle_dec 0 x) as [X|X]; [nra|].
    assert (HDb : D <= b ^ 2) by (unfold D; nra).
    assert (Sq : (D * x) * (D * x) <= (b * r) * (b * r)).
    { replace (b * r * (b * r)) with (b ^ 2 * (D * x ^ 2 + g * d)) by (rewrite <- Hr; ring).
      pose proof (pow2_ge_0 x) as X2. pose proof (pow2_ge_0 b) as B2.
      assert (0 <= D * x ^ 2) by nra. assert (0 <= b ^ 2 * (g * d)) by nra.
      replace (D * x * (D * x)) with (D * (D * x ^ 2)) by ring. nra. }
    assert (0 <= b * r) by nra. assert (D * x <= 0) by nra. nra. }
  rewrite <- (sqrt_square (b * y - a * x)) by exact Hpos. f_equal.
  apply (Rmult_eq_reg_l (g ^ 2)); [|apply pow_nonzero; lra].
  replace (g ^ 2 * (D * y ^ 2 + a * d)) with (D * (g * y) ^ 2 + g ^ 2 * a * d) by ring.
  replace (g ^ 2 * ((b * y - a * x) * (b * y - a * x))) with ((b * (g * y) - a * g * x) ^ 2) by ring.
  rewrite Hy. replace ((r + b * x) ^ 2) with (r * r + 2 * b * x * r + b ^ 2 * x ^ 2) by ring.
  replace ((b * (r + b * x) - a * g * x) ^ 2) with (b ^ 2 * (r * r) + 2 * b * r * (D * x) + (D * x) ^ 2) by (unfold D; ring).
  rewrite Hr. unfold D. ring.
Qed.

Theorem activation_inverse a x : admissible a -> exists y, activation a x = Some y /\ activation_inv a y = Ok (Some x).
Proof.
  intros H. destruct a as [|al|h|]; cbn [activation].
  - exists (arcsinh x). split; [reflexivity|]. cbn. now rewrite sinh_arcsinh.
  - exists (lrelu al x). split; [reflexivity|]. cbn in H. cbn [activation_inv].
    destruct (Req_EM_T al 0) as [E|_]; [exfalso; lra|]. unfold lrelu.
    pose proof (Rinv_0_lt_compat _ H) as Hi. assert (E1 : al * / al = 1) by (apply Rinv_r; lra). set (i := / al) in *.
    replace (1 / al) with i by (unfold i; field; lra).
    destruct (Rle_dec al 1) as [L|L], (Rle_dec 0 x) as [X|X].
    + rewrite Rmin_right; [reflexivity|]. assert (1 <= i) by nra. nra.
    + do 2 f_equal. replace (i * (al * x)) with x by (rewrite <- Rmult_assoc, (Rmult_comm i), E1; ring). apply Rmin_left. nra.
    + rewrite Rmax_right; [reflexivity|]. assert (i <= 1) by nra. nra.
    + do 2 f_equal. replace (i * (al * x)) with x by (rewrite <- Rmult_assoc, (Rmult_comm i), E1; ring). apply Rmax_left. nra.
  - eexists. split; [now apply hyperbola_value|]. destruct H as (Ha & Hg & Hd & Hb & Hq). cbn [activation_inv].
    unfold sqrt_nan. set (y := 1 / h_gamma h * _).
    destruct (Rlt_dec _ 0) as [N|_].
    + exfalso. assert (0 < h_alpha h * h_delta h) by now apply Rmult_lt_0_compat.
      assert (0 <= (h_beta h ^ 2 - h_gamma h * h_alpha h) * y ^ 2); [|lra]. apply Rmult_le_pos; [lra|apply pow2_ge_0].
    + do 2 f_equal. unfold y. rewrite hyperbola_branch by assumption. fold y. field. lra.
  - destruct H.
Qed.

(** ... and the activation undoes the inverse. *)
Theorem inverse_activation a y : admissible a -> exists x, activation_inv a y = Ok (Some x) /\ activation a x = Some y.
Proof.
  intros H. destruct a as [|al|h|].
  - exists (sinh y). split; [reflexivity|]. cbn. now rewrite arcsinh_sinh.
  - assert (E : exists x, lrelu al x = y).
    { cbn in H. unfold lrelu. destruct (Rle_dec 0 y) as [Y|Y].
      - exists y. destruct (Rle_dec 0 y); [reflexivity|contradiction].
      - exists (y / al). pose proof (Rinv_0_lt_compat _ H) as Hi. destruct (Rle_dec 0 (y / al)) as [N|_].
        + exfalso. unfold Rdiv in N. nra.
        + field. lra. }
    destruct E as (x & E). destruct (activation_inverse (LReLU al) x H) as (y' & A & B). cbn in A. injection A as <-.
    exists x. rewrite <- E. split; [exact B|reflexivity].
  - pose proof H as (Ha & Hg & Hd & Hb & Hq).
    assert (Hq' : h_gamma h * h_alpha h < h_beta h ^ 2) by lra.
    (* by symmetry of the hyperbola, read through the origin *)
    pose proof (hyperbola_branch (h_gamma h) (h_beta h) (h_alpha h) (h_delta h) (- y) Hg Ha Hd Hb Hq') as B. cbv zeta in B.
    set (D := h_beta h ^ 2 - h_gamma h * h_alpha h) in *.
    assert (ED : h_beta h ^ 2 - h_alpha h * h_gamma h = D) by (unfold D; ring). rewrite ED in B.
    replace ((- y) ^ 2) with (y ^ 2) in B by ring.
    set (x' := 1 / h_alpha h * (sqrt (D * y ^ 2 + h_alpha h * h_delta h) + h_beta h * - y)) in *.
    exists (- x'). split.
    + cbn [activation_inv]. fold D. unfold sqrt_nan. destruct (Rlt_dec _ 0) as [N|_].
      * exfalso. assert (0 < h_alpha h * h_delta h) by now apply Rmult_lt_0_compat.
        assert (0 <= D * y ^ 2); [|lra]. apply Rmult_le_pos; [unfold D; lra|apply pow2_ge_0].
      * do 2 f_equal. unfold x'. ring.
    + cbn [activation]. rewrite hyperbola_value by exact H. fold D. f_equal.
      replace ((- x') ^ 2) with (x' ^ 2) by ring. rewrite B. field. lra.
  - destruct H.
Qed.

Theorem lrelu_zero_rejected y : activation_inv (LReLU 0) y = Err EBijection.
Proof. cbn. destruct (Req_EM_T 0 0) as [_|N]; [reflexivity|contradiction]. Qed.
Theorem fourier_rejected y : activation_inv Fourier y = Err EBijection.
Proof. reflexivity. Qed.
(** A negative slope is accepted, has no inverse, and is not rejected. *)
Theorem lrelu_negative al x : al < 0 -> 0 < x -> exists y x', activation (LReLU al) x = Some y /\
  activation_inv (LReLU al) y = Ok (Some x') /\ x' < 0.
Proof.
  intros Ha Hx. exists x, (1 / al * x). cbn [activation activation_inv]. unfold lrelu.
  destruct (Rle_dec 0 x) as [_|N]; [|exfalso; lra]. split; [reflexivity|].
  pose proof (Rinv_lt_0_compat _ Ha) as Hi. assert (S : 1 / al * x < 0) by (unfold Rdiv; nra).
  split; [|exact S]. destruct (Req_EM_T al 0) as [E|_]; [exfalso; lra|]. destruct (Rle_dec al 1) as [_|N]; [|exfalso; lra].
  now rewrite Rmin_left by lra.
Qed.
(** Assigning alpha after the construction is not checked against beta. *)
Theorem hyperbola_alpha_unchecked : exists h h', hyper_init 1 1 1 2 = Ok h /\ set_alpha h 5 = Ok h' /\
  activation (Hyperbola h') 2 = None.
Proof.
  exists (Hyper 1 2 1 1), (Hyper 5 2 1 1). unfold hyper_init, set_alpha, set_gamma, set_delta, set_beta.
  cbn [bind h_alpha h_beta h_gamma h_delta].
  assert (P : forall v, 0 < v -> pos v = true) by (intros; now apply pos_spec).
  repeat (rewrite P by lra; cbn [bind h_alpha h_beta h_gamma h_delta andb]). split; [reflexivity|]. split; [reflexivity|].
  cbn [activation]. unfold hyperbola, sqrt_nan. cbn [h_alpha h_beta h_gamma h_delta].
  destruct (Rlt_dec _ 0) as [_|N]; [reflexivity|exfalso; apply N; lra].
Qed.

(** * Fourier features *)

Lemma dot_map_scale c u v : dot (map (fun a => a * c) u) (map (fun a => a * c) v) = c * c * dot u v.
Proof. revert v. induction u as [|a u IH]; intros [|b v]; cbn [map]; rewrite ?dot_nil_l, ?dot_nil_r; try ring. rewrite !dot_cons, IH. ring. Qed.
Lemma dot_app a b c d : length a = length c -> dot (a ++ b) (c ++ d) = dot a c + dot b d.
Proof.
  revert c. induction a as [|x a IH]; intros [|y c] H; try discriminate H; cbn [app]; [rewrite dot_nil_l; ring|].
  rewrite !dot_cons, IH by (now injection H). ring.
Qed.
Lemma dot_sub_l x y r : length x = length y -> length x = length r -> dot x r - dot y r = dot (diff x y) r.
Proof. intros H _. unfold diff. rewrite dot_zipw_minus_l by exact H. reflexivity. Qed.

(** What the kernel is: an average of cosines of projections of the difference. *)
Definition rff_value (w : mat) (sigma : R) (t : vec) : R := mean (map (fun r => cos (dot t r * (1 / sigma))) w).

Lemma rff_kernel_value d w sigma x y : w <> [] -> rect d w -> length x = d -> length y = d ->
  rf_kernel Fourier w sigma x y = Some (rff_value w sigma (diff x y)).
Proof.
  intros Hw Hr Hx Hy. unfold rf_kernel, rf_features. f_equal. rewrite dot_map_scale, dot_app by (unfold projections; now rewrite !map_length).
  assert (P : 0 < INR (length w)) by (now apply INR_length_pos).
  assert (S : 1 / sqrt (INR (length w)) * (1 / sqrt (INR (length w))) = / INR (length w)).
  { pose proof (sqrt_lt_R0 _ P) as SP. pose proof (sqrt_sqrt _ (Rlt_le _ _ P)) as SS.
    rewrite <- SS at 3. field. lra. }
  rewrite S. unfold rff_value, mean. rewrite map_length. unfold Rdiv. rewrite Rmult_comm. f_equal.
  unfold projections, Rdiv. clear S P Hw. generalize (1 * / sigma) as i. intros i. induction Hr as [|r w Hr _ IH]; [cbn; ring|]. cbn [map]. rewrite !dot_cons, sum_cons.
  rewrite <- IH. rewrite <- (dot_sub_l x y r) by congruence.
  replace ((dot x r - dot y r) * i) with (dot x r * i - dot y r * i) by ring.
  rewrite cos_minus. ring.
Qed.
Lemma mean_bounds l a b : l <> [] -> Forall (fun x => a <= x <= b) l -> a <= mean l <= b.
Proof.
  intros Hne H. pose proof (INR_length_pos l Hne) as P.
  assert (B : INR (length l) * a <= sum l <= INR (length l) * b).
  { clear Hne P. induction H as [|x l Hx _ IH]; [cbn; lra|]. rewrite sum_cons. cbn [length]. rewrite S_INR. lra. }
  rewrite <- mean_sum in B by exact Hne. destruct B as [B1 B2].
  split; apply (Rmult_le_reg_l (INR (length l))); assumption.
Qed.
Theorem rff_shift_invariant d w sigma : w <> [] -> rect d w ->
  forall x y, length x = d -> length y = d -> exists v, rf_kernel Fourier w sigma x y = Some v /\
    -1 <= v <= 1 /\ rf_kernel Fourier w sigma y x = Some v /\ rf_kernel Fourier w sigma x x = Some 1 /\
    forall t, length t = d -> rf_kernel Fourier w sigma (zipw Rplus x t) (zipw Rplus y t) = Some v.
Proof.
  intros Hw Hr x y Hx Hy. exists (rff_value w sigma (diff x y)). split; [now apply (rff_kernel_value d)|].
  split; [|split; [|split]].
  - unfold rff_value. apply mean_bounds; [destruct w; [contradiction|discriminate]|]. apply Forall_map. apply Forall_forall.
    intros r _. apply COS_bound.
  - rewrite (rff_kernel_value d) by assumption. f_equal. unfold rff_value. f_equal. apply map_ext_in. intros r Hin.
    pose proof (proj1 (Forall_forall _ _) Hr r Hin) as Lr. cbn in Lr.
    rewrite <- !dot_sub_l by congruence.
    replace ((dot y r - dot x r) * (1 / sigma)) with (- ((dot x r - dot y r) * (1 / sigma))) by ring. apply cos_neg.
  - rewrite (rff_kernel_value d) by assumption. f_equal. unfold rff_value.
    transitivity (mean (map (fun _ => 1) w)).
    + f_equal. apply map_ext_in. intros r Hin. pose proof (proj1 (Forall_forall _ _) Hr r Hin) as Lr. cbn in Lr.
      rewrite <- dot_sub_l by congruence. replace ((dot x r - dot x r) * (1 / sigma)) with 0 by ring. apply cos_0.
    + rewrite mean_map, sum_map_const. field. pose proof (INR_length_pos w Hw). lra.
  - intros t Ht.
    assert (Lz : forall a : vec, length a = d -> length (zipw Rplus a t) = d).
    { clear - Ht. intros a Ha. rewrite <- Ha in Ht |- *. clear Ha. revert t Ht. induction a as [|u a IH]; intros [|v t] H; try discriminate H; [reflexivity|].
      cbn. now rewrite IH by (now injection H). }
    rewrite (rff_kernel_value d) by (assumption || now apply Lz). do 2 f_equal.
    clear - Hx Hy Ht. rewrite <- Hx in Hy, Ht. clear Hx. revert y t Hy Ht. unfold diff. induction x as [|u x IH]; intros [|v y] [|s t] Hy Ht;
      try discriminate Hy; try discriminate Ht; [reflexivity|]. cbn [zipw].
    f_equal; [ring|]. apply IH; [now injection Hy|now injection Ht].
Qed.

(** With infinitely many weights it is the Gaussian kernel. *)
Theorem rff_infinite_is_rbf sigma x y : sigma <> 0 ->
  rbf sigma x y = Ok (Fin (rff_closed (scaled sigma x) (scaled sigma y))).
Proof.
  intros Hs. rewrite rbf_is by exact Hs. do 2 f_equal. unfold rbf_value, rff_closed. f_equal.
  assert (E : sum (zipw (fun a b => (a - b) * (a - b)) (scaled sigma x) (scaled sigma y)) = square_dist x y / (sigma * sigma)).
  { unfold square_dist. revert y. induction x as [|a x IH]; intros [|b y]; cbn [scaled map zipw]; rewrite ?sum_cons; try (cbn; field; exact Hs).
    unfold scaled in IH. rewrite IH. field. exact Hs. }
  rewrite E. field. exact Hs.
Qed.

(** Leaky-ReLU closed form: with slope one the linear kernel; the diagonal. *)
Lemma unit_dot x y : norm x <> 0 -> norm y <> 0 ->
  norm x * norm y * dot (map (fun v => v / norm x) x) (map (fun v => v / norm y) y) = dot x y.
Proof. intros Hx Hy. rewrite dot_div_l, dot_div_r. field. now split. Qed.
Theorem lrelu_closed_linear x y : norm x <> 0 -> norm y <> 0 -> lrelu_closed 1 x y = Some (dot x y).
Proof.
  intros Hx Hy. unfold lrelu_closed. destruct (Req_EM_T (norm x) 0); [contradiction|]. destruct (Req_EM_T (norm y) 0); [contradiction|].
  cbv zeta. f_equal. pose proof (unit_dot x y Hx Hy) as U. rewrite <- U. clear U. pose proof PI_RGT_0. field. lra.
Qed.
Theorem lrelu_closed_diag al x : norm x <> 0 -> lrelu_closed al x x = Some ((1 + al ^ 2) / 2 * dot x x).
Proof.
  intros Hx. unfold lrelu_closed. destruct (Req_EM_T (norm x) 0); [contradiction|]. cbv zeta. f_equal.
  assert (U : dot (map (fun v => v / norm x) x) (map (fun v => v / norm x) x) = 1).
  { pose proof (unit_dot x x Hx Hx) as E.
    apply (Rmult_eq_reg_l (norm x * norm x)); [rewrite E, norm_sqr; ring|]. now apply Rmult_integral_contrapositive. }
  rewrite U, acos_1. replace (1 - 1 ^ 2) with 0 by ring. rewrite sqrt_0, norm_sqr. pose proof PI_RGT_0. field. lra.
Qed.
Theorem lrelu_closed_sym al x y : lrelu_closed al x y = lrelu_closed al y x.
Proof.
  unfold lrelu_closed. destruct (Req_EM_T (norm x) 0), (Req_EM_T (norm y) 0); try reflexivity. cbv zeta. f_equal.
  rewrite (dot_comm (map (fun v => v / norm x) x)), (Rmult_comm (norm x)). reflexivity.
Qed.
Theorem lrelu_closed_origin al x y : norm x = 0 -> lrelu_closed al x y = None.
Proof. intros E. unfold lrelu_closed. now destruct (Req_EM_T (norm x) 0). Qed.

(** * Pre-images *)


Lemma apply_matrix_length m x : length (apply_matrix m x) = length m.
Proof. apply map_length. Qed.
Lemma left_inverse d w p x : rect d w -> pseudo_inverse d w p -> full_column_rank d w -> length x = d ->
  apply_matrix p (apply_matrix w x) = x.
Proof.
  intros Hw (Hp & Hr & H) Hc Hx. set (z := apply_matrix p (apply_matrix w x)).
  assert (Hz : length z = d) by (unfold z; now rewrite apply_matrix_length).
  assert (Z : Forall (fun a => a = 0) (diff z x)).
  { apply Hc; [rewrite (diff_length z x) by congruence; exact Hz|]. apply Forall_forall. intros r Hr'.
    rewrite dot_comm, <- dot_sub_l; [|congruence|rewrite Hz; symmetry; exact (proj1 (Forall_forall _ _) Hw r Hr')].
    specialize (H x Hx). fold z in H. unfold apply_matrix in H.
    assert (E : dot r z = dot r x).
    { clear - H Hr'. clearbody z. induction w as [|q w IH]; [destruct Hr'|]. cbn [map] in H. injection H as H0 H1.
      destruct Hr' as [->|I]; [exact H0|]. now apply IH. }
    rewrite (dot_comm z), (dot_comm x), E. ring. }
  clear - Z Hz Hx. clearbody z. rewrite <- Hz in Hx. clear Hz. revert x Hx Z. unfold diff. induction z as [|a u IH]; intros [|b x] L F; try discriminate L; [reflexivity|].
  apply Forall_cons_iff in F. destruct F as [F0 F1]. f_equal; [lra|]. apply IH; [now injection L|exact F1].
Qed.

Lemma all_some_map {A} (f : A -> option R) (g : A -> R) l : (forall a, In a l -> f a = Some (g a)) -> all_some (map f l) = Some (map g l).
Proof.
  induction l as [|a l IH]; intros H; [reflexivity|]. cbn [map all_some]. rewrite (H a (or_introl eq_refl)).
  rewrite IH by (intros; apply H; now right). reflexivity.
Qed.
Lemma all_ok_map {A} (f : A -> result (option R)) (g : A -> R) l : (forall a, In a l -> f a = Ok (Some (g a))) -> all_ok (map f l) = Ok (Some (map g l)).
Proof.
  induction l as [|a l IH]; intros H; [reflexivity|]. cbn [map all_ok]. rewrite (H a (or_introl eq_refl)). cbn [bind].
  rewrite IH by (intros; apply H; now right). reflexivity.
Qed.

Lemma activation_fun a : admissible a -> forall x, exists y, activation a x = Some y /\ activation_inv a y = Ok (Some x).
Proof. intros H x. now apply activation_inverse. Qed.

Definition act_value (a : act) (x : R) : R := match activation a x with Some y => y | None => 0 end.
Lemma act_value_inv a x : admissible a -> activation a x = Some (act_value a x) /\ activation_inv a (act_value a x) = Ok (Some x).
Proof. intros H. unfold act_value. destruct (activation_inverse a x H) as (y & -> & E). now split. Qed.

Lemma rf_features_value a w sigma x : admissible a ->
  rf_features a w sigma x = Some (map (fun r => act_value a (dot x r * (1 / sigma)) * (1 / sqrt (INR (length w)))) w).
Proof.
  intros H. unfold rf_features. assert (F : match a with Fourier => False | _ => True end) by (destruct a; [exact I|exact I|exact I|destruct H]).
  assert (E : all_some (map (activation a) (projections w sigma x)) = Some (map (act_value a) (projections w sigma x))).
  { apply (all_some_map (activation a) (act_value a)). intros v _. now apply act_value_inv. }
  destruct a; try (destruct F); rewrite E; f_equal; unfold projections; rewrite !map_map; reflexivity.
Qed.

Lemma scale_back w r : w <> (@nil vec) -> r * (1 / sqrt (INR (length w))) * sqrt (INR (length w)) = r.
Proof. intros Hw. pose proof (sqrt_lt_R0 _ (INR_length_pos w Hw)). field. lra. Qed.

Theorem preimage_exact a d w p sigma x : admissible a -> sigma <> 0 -> w <> [] -> rect d w ->
  pseudo_inverse d w p -> full_column_rank d w -> length x = d ->
  exists phi, rf_features a w sigma x = Some phi /\ rf_preimage a w p sigma phi = Ok (Some x).
Proof.
  intros Ha Hs Hw Hr Hp Hc Hx. eexists. split; [now apply rf_features_value|]. unfold rf_preimage. rewrite map_map.
  rewrite (all_ok_map _ (fun r => dot x r * (1 / sigma))).
  2:{ intros r _. rewrite scale_back by exact Hw. now apply act_value_inv. }
  cbn [bind]. do 2 f_equal.
  transitivity (apply_matrix p (apply_matrix w x)); [|exact (left_inverse d w p x Hr Hp Hc Hx)].
  unfold apply_matrix at 1. apply map_ext. intros q.
  transitivity (dot (map (fun v => 1 / sigma * v) (apply_matrix w x)) q * sigma).
  - f_equal. f_equal. unfold apply_matrix. rewrite map_map. apply map_ext. intros r. rewrite (dot_comm r x). ring.
  - rewrite dot_scal_l, (dot_comm q). field. exact Hs.
Qed.

(** The other direction: with independent rows every feature vector is reached. *)
Theorem preimage_section a d w p sigma phi : admissible a -> sigma <> 0 -> w <> [] -> rect d w ->
  pseudo_inverse d w p -> full_row_rank d w -> length phi = length w ->
  exists x, rf_preimage a w p sigma phi = Ok (Some x) /\ rf_features a w sigma x = Some phi.
Proof.
  intros Ha Hs Hw Hr (Hp & Hpr & HP) Hc Hphi.
  assert (G : forall v, exists x, activation_inv a v = Ok (Some x) /\ activation a x = Some v) by (intros; now apply inverse_activation).
  set (inv := fun v => match activation_inv a (v * sqrt (INR (length w))) with Ok (Some x) => x | _ => 0 end).
  assert (I : forall v, activation_inv a (v * sqrt (INR (length w))) = Ok (Some (inv v)) /\ activation a (inv v) = Some (v * sqrt (INR (length w)))).
  { intros v. unfold inv. destruct (G (v * sqrt (INR (length w)))) as (x & -> & E). now split. }
  eexists. unfold rf_preimage. rewrite (all_ok_map _ inv) by (intros v _; apply I). cbn [bind]. split; [reflexivity|].
  rewrite rf_features_value by exact Ha. f_equal.
  set (u := map inv phi). assert (Lu : length u = length w) by (unfold u; now rewrite map_length).
  destruct (Hc u Lu) as (x0 & Lx0 & Ex0).
  assert (Wx : forall r, In r w -> dot (map (fun q => dot u q * sigma) p) r * (1 / sigma) = dot (apply_matrix p u) r).
  { intros r _. transitivity (dot (map (fun v => sigma * v) (apply_matrix p u)) r * (1 / sigma)).
    - f_equal. f_equal. unfold apply_matrix. rewrite map_map. apply map_ext. intros q. rewrite (dot_comm q u). ring.
    - rewrite dot_scal_l. field. exact Hs. }
  assert (WP : apply_matrix w (apply_matrix p u) = u) by (rewrite <- Ex0; now apply HP).
  transitivity (map (fun v => act_value a v * (1 / sqrt (INR (length w)))) (apply_matrix w (apply_matrix p u))).
  - unfold apply_matrix at 1. rewrite map_map. apply map_ext_in. intros r Hin. rewrite Wx by exact Hin. now rewrite dot_comm.
  - rewrite WP. unfold u. rewrite map_map. rewrite <- (map_id phi) at 2. apply map_ext. intros v.
    unfold act_value. rewrite (proj2 (I v)). pose proof (sqrt_lt_R0 _ (INR_length_pos w Hw)). field. lra.
Qed.
