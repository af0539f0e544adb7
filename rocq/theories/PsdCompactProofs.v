(** Which kernels of compact support give positive semi-definite matrices: proofs. *)
From Verif Require Import Base RVec RVecProofs KernelR KernelRSpec Psd KernelRProofs Multiplier PsdKernelProofs TimeR TimeRSpec TimeRProofs.
Open Scope R_scope.

(** ** Quadratic forms with integer entries *)

Definition zsum (l : list Z) : Z := fold_right Z.add 0%Z l.
Definition zquad {A : Type} (t : A -> A -> Z) (l : list (Z * A)) : Z :=
  zsum (map (fun p => zsum (map (fun q => (fst p * fst q * t (snd p) (snd q))%Z) l)) l).

Lemma IZR_zsum l : IZR (zsum l) = sum (map IZR l).
Proof. induction l as [|a l IH]; [reflexivity|]. cbn [zsum fold_right map]. fold (zsum l). now rewrite plus_IZR, sum_cons, IH. Qed.

Lemma zquad_value {A X} (f : X -> X -> R) (P : A -> X) (t : A -> A -> Z) (D : R) l :
  (forall p q, In p l -> In q l -> D * f (P (snd p)) (P (snd q)) = IZR (t (snd p) (snd q))) ->
  D * qsum f (map (fun p => (IZR (fst p), P (snd p))) l) = IZR (zquad t l).
Proof.
  intros H. unfold qsum, zquad. rewrite IZR_zsum, !map_map, <- sum_map_scal. apply sum_map_ext. intros p Hp.
  rewrite IZR_zsum, !map_map, <- sum_map_scal. apply sum_map_ext. intros q Hq. cbn [fst snd].
  rewrite !mult_IZR, <- H by assumption. ring.
Qed.
Lemma not_psd {A X} (dom : X -> Prop) (f : X -> X -> R) (P : A -> X) (t : A -> A -> Z) (D : R) l : 0 < D ->
  (forall a, dom (P a)) ->
  (forall p q, In p l -> In q l -> D * f (P (snd p)) (P (snd q)) = IZR (t (snd p) (snd q))) ->
  (zquad t l < 0)%Z -> ~ psd_on dom f.
Proof.
  intros HD Hdom H Hn Hp. rewrite psd_qsum in Hp.
  specialize (Hp (map (fun p => (IZR (fst p), P (snd p))) l)).
  assert (0 <= qsum f (map (fun p => (IZR (fst p), P (snd p))) l)).
  { apply Hp. apply Forall_map. apply Forall_forall. intros p _. cbn. apply Hdom. }
  pose proof (zquad_value f P t D l H) as E. apply IZR_lt in Hn. rewrite <- E in Hn. nra.
Qed.

(** ** Points with one or two coordinates that are not zero *)

Lemma zipw_repeat (f : R -> R -> R) k : zipw f (repeat 0 k) (repeat 0 k) = repeat (f 0 0) k.
Proof. induction k as [|k IH]; [reflexivity|]. cbn [repeat zipw]. now rewrite IH. Qed.
Lemma sum_repeat0 k : sum (repeat 0 k) = 0.
Proof. induction k as [|k IH]; [reflexivity|]. cbn [repeat]. rewrite sum_cons, IH. ring. Qed.
Lemma fold_max_repeat0 v k : 0 <= v -> fold_right Rmax v (repeat 0 k) = v.
Proof. intros H. induction k as [|k IH]; [reflexivity|]. cbn [repeat fold_right]. rewrite IH. now apply Rmax_right. Qed.

Definition axis (k : nat) (a : R) : vec := a :: repeat 0 k.
Definition plane (k : nat) (a b : R) : vec := a :: b :: repeat 0 k.

Lemma scaled (sigma u v : R) : 0 < sigma -> / sigma * Rabs (sigma * u - sigma * v) = Rabs (u - v).
Proof.
  intros H. replace (sigma * u - sigma * v) with (sigma * (u - v)) by ring. rewrite Rabs_mult, (Rabs_right sigma) by lra.
  field. lra.
Qed.

Lemma axis_dist d sigma k u v : offered d -> 0 < sigma ->
  dist_sigma d sigma (axis k (sigma * u)) (axis k (sigma * v)) = Ok (Fin (Rabs (u - v))).
Proof.
  intros Hd Hs. destruct d as [| | |p]; [| | |destruct Hd].
  - rewrite euclidean_sigma by lra. do 2 f_equal. unfold square_dist, axis. cbn [zipw]. rewrite sum_cons, zipw_repeat.
    replace ((0 - 0) * (0 - 0)) with 0 by ring. rewrite sum_repeat0, Rplus_0_r, Rabs_right by lra.
    change ((sigma * u - sigma * v) * (sigma * u - sigma * v)) with (Rsqr (sigma * u - sigma * v)).
    rewrite sqrt_Rsqr_abs. now apply scaled.
  - cbn [dist_sigma dist bind]. rewrite over_value by lra. do 2 f_equal. unfold axis. cbn [zipw lmax]. rewrite zipw_repeat.
    replace (0 - 0) with 0 by ring. rewrite Rabs_R0, fold_max_repeat0 by apply Rabs_pos. unfold Rdiv. rewrite Rmult_1_l.
    now apply scaled.
  - cbn [dist_sigma dist bind]. rewrite over_value by lra. do 2 f_equal. unfold axis. cbn [zipw]. rewrite sum_cons, zipw_repeat.
    replace (0 - 0) with 0 by ring. rewrite Rabs_R0, sum_repeat0, Rplus_0_r. unfold Rdiv. rewrite Rmult_1_l. now apply scaled.
Qed.

Definition plane_dist (d : distance) (a b : R) : R :=
  match d with
  | Euclidean => sqrt (a * a + b * b)
  | Manhattan => Rabs a + Rabs b
  | _ => Rmax (Rabs b) (Rabs a)
  end.
Lemma plane_dist_value d sigma k u v u' v' : offered d -> 0 < sigma ->
  dist_sigma d sigma (plane k (sigma * u) (sigma * v)) (plane k (sigma * u') (sigma * v')) =
  Ok (Fin (plane_dist d (u - u') (v - v'))).
Proof.
  intros Hd Hs. destruct d as [| | |p]; [| | |destruct Hd].
  - rewrite euclidean_sigma by lra. do 2 f_equal. unfold square_dist, plane. cbn [zipw]. rewrite !sum_cons, zipw_repeat.
    replace ((0 - 0) * (0 - 0)) with 0 by ring. rewrite sum_repeat0, Rplus_0_r, Rabs_right by lra. cbn [plane_dist].
    replace ((sigma * u - sigma * u') * (sigma * u - sigma * u') + (sigma * v - sigma * v') * (sigma * v - sigma * v'))
      with (Rsqr sigma * ((u - u') * (u - u') + (v - v') * (v - v'))) by (unfold Rsqr; ring).
    rewrite sqrt_mult_alt by apply Rle_0_sqr. rewrite sqrt_Rsqr by lra. field. lra.
  - cbn [dist_sigma dist bind]. rewrite over_value by lra. do 2 f_equal. unfold plane. cbn [zipw lmax fold_right]. rewrite zipw_repeat.
    replace (0 - 0) with 0 by ring. rewrite Rabs_R0, fold_max_repeat0 by apply Rabs_pos. unfold Rdiv. rewrite Rmult_1_l.
    cbn [plane_dist]. rewrite <- RmaxRmult by (left; now apply Rinv_0_lt_compat). now rewrite !scaled.
  - cbn [dist_sigma dist bind]. rewrite over_value by lra. do 2 f_equal. unfold plane. cbn [zipw]. rewrite !sum_cons, zipw_repeat.
    replace (0 - 0) with 0 by ring. rewrite Rabs_R0, sum_repeat0, Rplus_0_r. unfold Rdiv. rewrite Rmult_1_l.
    cbn [plane_dist]. rewrite Rmult_plus_distr_l. now rewrite !scaled.
Qed.

(** ** The kernels that fail on the line *)

(** [m ^ p] times the profile at distance [n / m], for integers. *)
Definition zprofile (k : kern) (m n : Z) : Z :=
  if (n <=? m)%Z then
    match k with
    | Uniform => 1
    | Epanechnikov => m * m - n * n
    | Quartic => (m * m - n * n) * (m * m - n * n)
    | Triweight => (m * m - n * n) * (m * m - n * n) * (m * m - n * n)
    | Tricube => (m * m * m - n * n * n) * (m * m * m - n * n * n) * (m * m * m - n * n * n)
    | _ => 0
    end%Z
  else 0%Z.
Definition degree (k : kern) : nat :=
  match k with Epanechnikov => 2 | Quartic => 4 | Triweight => 6 | Tricube => 9 | _ => 0 end%nat.
Definition steps (k : kern) : Z :=
  match k with Epanechnikov => 2 | Quartic => 3 | Triweight => 4 | Tricube => 3 | _ => 1 end%Z.
Definition weights (k : kern) : list (Z * Z) :=
  match k with
  | Quartic => [(1, 0); (-2, 1); (2, 2); (-1, 3)]
  | Triweight => [(4, 0); (-9, 1); (9, 2); (-4, 3)]
  | _ => [(2, 0); (-3, 1); (2, 2)]
  end%Z.

Lemma zprofile_value k m n : compact k -> k <> Triangular -> (0 < m)%Z ->
  exists v, profile k (Fin (IZR n / IZR m)) = Fin v /\ IZR m ^ degree k * v = IZR (zprofile k m n).
Proof.
  intros Hk Ht Hm. assert (M : 0 < IZR m) by now apply IZR_lt. unfold zprofile.
  assert (C : (IZR n / IZR m <= 1 /\ (n <=? m)%Z = true) \/ (~ IZR n / IZR m <= 1 /\ (n <=? m)%Z = false)).
  { destruct (Z.leb_spec n m) as [L|L]; [left|right]; (split; [|reflexivity]).
    - apply IZR_le in L. apply (Rmult_le_reg_r (IZR m)); [exact M|]. unfold Rdiv. rewrite Rmult_assoc, Rinv_l; lra.
    - apply IZR_lt in L. intros H. apply (Rmult_le_compat_r (IZR m)) in H; [|lra]. unfold Rdiv in H.
      rewrite Rmult_assoc, Rinv_l in H; lra. }
  destruct C as [[C ->]|[C ->]]; destruct k; try destruct Hk; try (exfalso; apply Ht; reflexivity); cbn [profile window degree];
    (destruct (Rle_dec (IZR n / IZR m) 1) as [L|L]; try contradiction); eexists; (split; [reflexivity|]);
    rewrite ?mult_IZR, ?minus_IZR, ?mult_IZR; try ring; field; lra.
Qed.

Lemma line_not_psd k d sigma n f : compact k -> k <> Triangular -> offered d -> 0 < sigma ->
  (forall x y, length x = S n -> length y = S n -> kvalue k d sigma x y = Ok (Fin (f x y))) ->
  ~ psd_on (fun x : vec => length x = S n) f.
Proof.
  intros Hk Ht Hd Hs Hf.
  set (m := steps k). assert (Hm : (0 < m)%Z) by (unfold m; destruct k; reflexivity).
  assert (M : 0 < IZR m) by now apply IZR_lt.
  set (P := fun i : Z => axis n (sigma * (IZR i / IZR m))).
  assert (LP : forall i, length (P i) = S n) by (intros i; unfold P, axis; cbn [length]; now rewrite repeat_length).
  apply (not_psd _ f P (fun i j => zprofile k m (Z.abs (i - j))) (IZR m ^ degree k) (weights k)).
  - now apply pow_lt.
  - exact LP.
  - intros p q _ _. specialize (Hf (P (snd p)) (P (snd q)) (LP _) (LP _)).
    destruct (zprofile_value k m (Z.abs (snd p - snd q)) Hk Ht Hm) as (v & Pv & Ev).
    rewrite <- Ev. f_equal.
    assert (E : kvalue k d sigma (P (snd p)) (P (snd q)) = Ok (profile k (Fin (IZR (Z.abs (snd p - snd q)) / IZR m)))).
    { unfold kvalue. replace (match k with Exponential true => square_dist_sigma d sigma (P (snd p)) (P (snd q)) | _ => dist_sigma d sigma (P (snd p)) (P (snd q)) end)
        with (dist_sigma d sigma (P (snd p)) (P (snd q))) by (destruct k; try reflexivity; destruct Hk).
      unfold P. rewrite axis_dist by assumption. cbn [bind]. do 3 f_equal. rewrite abs_IZR, minus_IZR.
      replace (IZR (snd p) / IZR m - IZR (snd q) / IZR m) with ((IZR (snd p) - IZR (snd q)) * / IZR m) by (field; lra).
      rewrite Rabs_mult, (Rabs_right (/ IZR m)); [reflexivity|]. apply Rle_ge. left. now apply Rinv_0_lt_compat. }
    rewrite E, Pv in Hf. injection Hf as Hf. now symmetry.
  - unfold m. destruct k; try destruct Hk; try (exfalso; apply Ht; reflexivity); reflexivity.
Qed.

(** ** The triangular kernel in the plane *)

Definition tri (r : R) : R := if Rle_dec r 1 then 1 - r else 0.
Lemma tri_far r : 1 <= r -> tri r = 0.
Proof. intros H. unfold tri. destruct (Rle_dec r 1); lra. Qed.
Lemma tri_near r : r <= 1 -> tri r = 1 - r.
Proof. intros H. unfold tri. destruct (Rle_dec r 1); [reflexivity|contradiction]. Qed.

Definition tensor (u v : list Z) : list (Z * (Z * Z)) :=
  flat_map (fun p => map (fun q => ((fst p * fst q)%Z, (snd p, snd q))) (combine v (map Z.of_nat (seq 0 (length v)))))
           (combine u (map Z.of_nat (seq 0 (length u)))).

Definition star (p q : Z * Z) : Z :=
  let n := (Z.abs (fst p - fst q) + Z.abs (snd p - snd q))%Z in
  if (n =? 0)%Z then 100%Z else if (n =? 1)%Z then 29%Z else 0%Z.
Definition box (p q : Z * Z) : Z :=
  let n := Z.max (Z.abs (snd p - snd q)) (Z.abs (fst p - fst q)) in
  if (n =? 0)%Z then 2%Z else if (n =? 1)%Z then 1%Z else 0%Z.

Lemma abs_step h (i j : Z) : 0 < h -> Rabs (h * IZR i - h * IZR j) = h * IZR (Z.abs (i - j)).
Proof.
  intros H. rewrite abs_IZR, minus_IZR, <- Rmult_minus_distr_l, Rabs_mult, (Rabs_right h) by lra. reflexivity.
Qed.
Lemma square_step h (i j : Z) : (h * IZR i - h * IZR j) * (h * IZR i - h * IZR j) = h * h * IZR (Z.abs (i - j) * Z.abs (i - j)).
Proof. rewrite <- Z.abs_mul, Z.abs_eq by apply Z.square_nonneg. rewrite mult_IZR, minus_IZR. ring. Qed.

Lemma manhattan_star p q :
  100 * tri (plane_dist Manhattan (71 / 100 * IZR (fst p) - 71 / 100 * IZR (fst q)) (71 / 100 * IZR (snd p) - 71 / 100 * IZR (snd q)))
  = IZR (star p q).
Proof.
  cbn [plane_dist]. rewrite !abs_step by lra. unfold star.
  assert (Ha := Z.abs_nonneg (fst p - fst q)). assert (Hb := Z.abs_nonneg (snd p - snd q)).
  set (a := Z.abs (fst p - fst q)) in *. set (b := Z.abs (snd p - snd q)) in *.
  rewrite <- Rmult_plus_distr_l, <- plus_IZR. set (c := (a + b)%Z).
  destruct (Z.eqb_spec c 0) as [E|N0]; [rewrite E, tri_near by lra; lra|].
  destruct (Z.eqb_spec c 1) as [E|N1]; [rewrite E, tri_near by lra; lra|].
  assert (L : (2 <= c)%Z) by (unfold c in *; lia). apply IZR_le in L. rewrite tri_far by lra. lra.
Qed.
Lemma euclidean_star p q :
  100 * tri (plane_dist Euclidean (71 / 100 * IZR (fst p) - 71 / 100 * IZR (fst q)) (71 / 100 * IZR (snd p) - 71 / 100 * IZR (snd q)))
  = IZR (star p q).
Proof.
  cbn [plane_dist]. rewrite !square_step. unfold star.
  assert (Ha := Z.abs_nonneg (fst p - fst q)). assert (Hb := Z.abs_nonneg (snd p - snd q)).
  set (a := Z.abs (fst p - fst q)) in *. set (b := Z.abs (snd p - snd q)) in *.
  rewrite <- Rmult_plus_distr_l, <- plus_IZR. set (c := (a * a + b * b)%Z).
  assert (Qa : (a <= a * a)%Z) by nia. assert (Qb : (b <= b * b)%Z) by nia.
  destruct (Z.eqb_spec (a + b) 0) as [E|N0].
  { assert (Ea : a = 0%Z) by lia. assert (Eb : b = 0%Z) by lia.
    replace c with 0%Z by (unfold c; rewrite Ea, Eb; reflexivity). rewrite Rmult_0_r, sqrt_0, tri_near by lra. lra. }
  destruct (Z.eqb_spec (a + b) 1) as [E|N1].
  { assert (O : (a = 0 /\ b = 1 \/ a = 1 /\ b = 0)%Z) by lia.
    replace c with 1%Z by (unfold c; destruct O as [[-> ->]|[-> ->]]; reflexivity). rewrite Rmult_1_r, sqrt_square, tri_near by lra. lra. }
  assert (L : (2 <= c)%Z) by (unfold c; lia). apply IZR_le in L.
  rewrite tri_far; [lra|]. rewrite <- sqrt_1 at 1. apply sqrt_le_1_alt. lra.
Qed.
Lemma chebyshev_box p q :
  2 * tri (plane_dist Chebyshev (1 / 2 * IZR (fst p) - 1 / 2 * IZR (fst q)) (1 / 2 * IZR (snd p) - 1 / 2 * IZR (snd q)))
  = IZR (box p q).
Proof.
  cbn [plane_dist]. rewrite !abs_step by lra. unfold box.
  assert (Ha := Z.abs_nonneg (fst p - fst q)). assert (Hb := Z.abs_nonneg (snd p - snd q)).
  set (a := Z.abs (fst p - fst q)) in *. set (b := Z.abs (snd p - snd q)) in *.
  rewrite RmaxRmult by lra.
  replace (Rmax (IZR b) (IZR a)) with (IZR (Z.max b a)).
  2: { unfold Rmax. destruct (Rle_dec (IZR b) (IZR a)) as [L|L].
       - apply le_IZR in L. f_equal. lia.
       - f_equal. apply Z.max_l. apply Rnot_le_lt, lt_IZR in L. lia. }
  set (c := Z.max b a).
  destruct (Z.eqb_spec c 0) as [E|N0]; [rewrite E, tri_near by lra; lra|].
  destruct (Z.eqb_spec c 1) as [E|N1]; [rewrite E, tri_near by lra; lra|].
  assert (L : (2 <= c)%Z) by (unfold c in *; lia). apply IZR_le in L. rewrite tri_far by lra. lra.
Qed.

Lemma plane_not_psd d sigma n f : offered d -> 0 < sigma ->
  (forall x y, length x = S (S n) -> length y = S (S n) -> kvalue Triangular d sigma x y = Ok (Fin (f x y))) ->
  ~ psd_on (fun x : vec => length x = S (S n)) f.
Proof.
  intros Hd Hs Hf.
  set (h := match d with Chebyshev => 1 / 2 | _ => 71 / 100 end).
  set (P := fun p : Z * Z => plane n (sigma * (h * IZR (fst p))) (sigma * (h * IZR (snd p)))).
  assert (LP : forall p, length (P p) = S (S n)) by (intros p; unfold P, plane; cbn [length]; now rewrite repeat_length).
  assert (V : forall p q, f (P p) (P q) = tri (plane_dist d (h * IZR (fst p) - h * IZR (fst q)) (h * IZR (snd p) - h * IZR (snd q)))).
  { intros p q. specialize (Hf (P p) (P q) (LP _) (LP _)). unfold kvalue, P in Hf. rewrite plane_dist_value in Hf by assumption.
    cbn [bind profile window] in Hf. injection Hf as Hf. symmetry. exact Hf. }
  destruct d as [| | |o]; [| | |destruct Hd].
  - apply (not_psd _ f P star 100 (tensor [4; -7; 8; -7; 4]%Z [4; -7; 8; -7; 4]%Z)); [lra|exact LP| |reflexivity].
    intros p q _ _. rewrite V. apply euclidean_star.
  - apply (not_psd _ f P box 2 (tensor [3; -5; 5; -3]%Z [3; 5; 5; 3]%Z)); [lra|exact LP| |reflexivity].
    intros p q _ _. rewrite V. apply chebyshev_box.
  - apply (not_psd _ f P star 100 (tensor [4; -7; 8; -7; 4]%Z [4; -7; 8; -7; 4]%Z)); [lra|exact LP| |reflexivity].
    intros p q _ _. rewrite V. apply manhattan_star.
Qed.

(** ** The triangular kernel on the line *)

Lemma line_psd d sigma : offered d -> 0 < sigma ->
  exists f, (forall x y, length x = 1%nat -> length y = 1%nat -> kvalue Triangular d sigma x y = Ok (Fin (f x y))) /\
            psd_on (fun x : vec => length x = 1%nat) f.
Proof.
  intros Hd Hs. exists (fun x y => / sigma * Rmax (sigma - Rabs (time x - time y)) 0). split.
  - intros x y Hx Hy. destruct x as [|a [|]]; try discriminate Hx. destruct y as [|b [|]]; try discriminate Hy. cbn [time nth].
    unfold kvalue. pose proof (axis_dist d sigma 0 (a / sigma) (b / sigma) Hd Hs) as E. unfold axis in E. cbn [repeat] in E.
    replace (sigma * (a / sigma)) with a in E by (field; lra). replace (sigma * (b / sigma)) with b in E by (field; lra).
    rewrite E. cbn [bind profile window]. do 2 f_equal.
    assert (A : Rabs (a / sigma - b / sigma) = / sigma * Rabs (a - b)).
    { rewrite <- (scaled sigma (a / sigma) (b / sigma) Hs). do 2 f_equal. field. lra. }
    rewrite A. set (r := Rabs (a - b)). assert (I : 0 < / sigma) by now apply Rinv_0_lt_compat.
    destruct (Rle_dec (/ sigma * r) 1) as [L|L].
    + rewrite Rmax_left; [field; lra|]. apply (Rmult_le_compat_l sigma) in L; [|lra].
      rewrite <- Rmult_assoc, Rinv_r in L; lra.
    + rewrite Rmax_right; [ring|]. apply Rnot_le_lt in L. apply (Rmult_lt_compat_l sigma) in L; [|lra].
      rewrite <- Rmult_assoc, Rinv_r in L; lra.
  - apply psd_scale; [left; now apply Rinv_0_lt_compat|].
    apply (psd_map time (fun x : vec => length x = 1%nat) (fun _ => True) (fun x y => Rmax (sigma - Rabs (x - y)) 0)); [auto|].
    apply hat_real_psd.
Qed.

Theorem compact_psd k d sigma n : compact k -> offered d -> 0 < sigma -> (1 <= n)%nat ->
  (exists f, (forall x y, length x = n -> length y = n -> kvalue k d sigma x y = Ok (Fin (f x y))) /\
             psd_on (fun x : vec => length x = n) f) <-> k = Triangular /\ n = 1%nat.
Proof.
  intros Hk Hd Hs Hn. split.
  - intros (f & Hf & Hp). destruct n as [|n]; [lia|].
    assert (Ek : k = Triangular).
    { destruct k; try reflexivity; try destruct Hk; exfalso;
        (refine (line_not_psd _ d sigma n f _ _ Hd Hs Hf Hp); [exact I|discriminate]). }
    split; [exact Ek|]. subst k. destruct n as [|n]; [reflexivity|]. exfalso. exact (plane_not_psd d sigma n f Hd Hs Hf Hp).
  - intros [-> ->]. now apply line_psd.
Qed.
