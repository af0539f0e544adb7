(** Generated data sets: proofs. *)
From Coq Require Import Reals List ZArith Lia Lra Psatz.
From Verif Require Import Datasets DatasetsSpec.
Import ListNotations.
Open Scope R_scope.

(** * Linear spaces *)
Lemma linspace_length : forall stop n, length (linspace0 stop n) = n.
Proof. intros stop [|[|n]]; cbn [linspace0]; try reflexivity. now rewrite map_length, seq_length. Qed.
Lemma linspace_in : forall stop n t, 0 <= stop -> In t (linspace0 stop n) -> 0 <= t <= stop.
Proof.
  intros stop [|[|n]] t Hs Ht; cbn [linspace0] in Ht.
  - contradiction.
  - destruct Ht as [<-|[]]. lra.
  - apply in_map_iff in Ht as [i [<- Hi]]. apply in_seq in Hi.
    assert (P : 0 < INR (S n)) by (apply lt_0_INR; lia).
    assert (A : 0 <= INR i) by apply pos_INR.
    assert (B : INR i <= INR (S n)) by (apply le_INR; lia).
    split.
    + apply Rmult_le_pos; [nra | left; now apply Rinv_0_lt_compat].
    + apply (Rmult_le_reg_r (INR (S n))); [exact P|]. unfold Rdiv. rewrite Rmult_assoc, Rinv_l by lra. nra.
Qed.
Lemma angle_trig : forall t, 0 <= t <= PI -> cos t * cos t + sin t * sin t = 1 /\ 0 <= sin t /\ -1 <= cos t <= 1 /\ sin t <= 1.
Proof.
  intros t [H0 H1]. pose proof (sin2_cos2 t) as E. unfold Rsqr in E.
  split; [lra|]. split; [now apply sin_ge_0|]. split; [apply COS_bound | apply SIN_bound].
Qed.

(** * Two moons *)
Lemma moons_exact_in : forall sep num p c, In (p, c) (moons_exact sep num) ->
  (c = 1 /\ lower_half sep p /\ fst sep - 1 <= fst p <= fst sep + 1 /\ snd sep - 1 <= snd p) \/
  (c = 0 /\ upper_half (0, 0) p /\ -1 <= fst p <= 1 /\ snd p <= 1).
Proof.
  intros sep num p c H. unfold moons_exact in H. apply in_app_iff in H as [H|H]; apply in_map_iff in H as [q [E Hq]];
    injection E as <- <-; apply in_map_iff in Hq as [t [<- Ht]]; apply linspace_in in Ht; try (left; apply PI_RGT_0 || fail); try (pose proof PI_RGT_0; lra);
    pose proof (angle_trig _ Ht) as [E [S [C S1]]].
  - left. split; [reflexivity|]. unfold lower_half. cbn [fst snd]. split; [split; [nra|lra]|]. lra.
  - right. split; [reflexivity|]. unfold upper_half. cbn [fst snd]. split; [split; [nra|lra]|]. lra.
Qed.
Lemma combine_in : forall {A} (l : list A) k n x, In (n, x) (combine (seq k (length l)) l) -> In x l.
Proof. intros A l k n x H. now apply in_combine_r in H. Qed.
Lemma perturb_in : forall noise draw l p c, In (p, c) (perturb noise draw l) ->
  exists i q, In (q, c) l /\ p = (fst q + noise * fst (draw i), snd q + noise * snd (draw i)).
Proof.
  intros noise draw l p c H. unfold perturb in H. apply in_map_iff in H as [[i [[x y] c']] [E Hi]].
  injection E as <- <-. exists i, (x, y). split; [exact (combine_in _ _ _ _ Hi) | reflexivity].
Qed.
Lemma perturb_labels : forall noise draw l, map snd (perturb noise draw l) = map snd l.
Proof.
  intros noise draw l. unfold perturb. generalize 0%nat. induction l as [|[[x y] c] l IH]; intros k; [reflexivity|].
  cbn [length seq combine map snd]. f_equal. apply IH.
Qed.
Lemma perturb_none : forall draw l, perturb 0 draw l = l.
Proof.
  intros draw l. unfold perturb. generalize 0%nat. induction l as [|[[x y] c] l IH]; intros k; [reflexivity|].
  cbn [length seq combine map]. rewrite !Rmult_0_l, !Rplus_0_r. now rewrite IH.
Qed.
Lemma with_label_map : forall c l l', map snd l = map snd l' -> with_label c l = with_label c l'.
Proof.
  intros c. induction l as [|x l IH]; intros [|y l'] H; try discriminate H; [reflexivity|].
  injection H as E H. unfold with_label in *. cbn [filter]. rewrite E. destruct (Req_EM_T (snd y) c); cbn [length]; now rewrite (IH _ H).
Qed.
Lemma with_label_app : forall c l l', with_label c (l ++ l')%list = (with_label c l + with_label c l')%nat.
Proof. intros c l l'. unfold with_label. now rewrite filter_app, app_length. Qed.
Lemma with_label_same : forall {A} c (f : A -> R * R) l, with_label c (map (fun p => (f p, c)) l) = length l.
Proof.
  intros A c f. induction l as [|x l IH]; [reflexivity|]. unfold with_label in *. cbn [map filter snd].
  destruct (Req_EM_T c c) as [_|N]; [|contradiction N; reflexivity]. cbn [length]. now rewrite IH.
Qed.
Lemma with_label_other : forall {A} c c' (f : A -> R * R) l, c <> c' -> with_label c' (map (fun p => (f p, c)) l) = 0%nat.
Proof.
  intros A c c' f l N. induction l as [|x l IH]; [reflexivity|]. unfold with_label in *. cbn [map filter snd].
  destruct (Req_EM_T c c') as [E|_]; [contradiction|]. exact IH.
Qed.
Theorem moons_counts : forall sep noise draw num,
  length (moons sep noise draw num) = num /\ with_label 1 (moons sep noise draw num) = (num - num / 2)%nat /\
  with_label 0 (moons sep noise draw num) = (num / 2)%nat.
Proof.
  intros sep noise draw num. pose proof (Nat.div_le_upper_bound num 2 num ltac:(lia) ltac:(lia)) as D.
  assert (L : forall l l' : list labelled, map snd l = map snd l' -> length l = length l').
  { intros l l' E. rewrite <- (map_length snd l), E. apply map_length. }
  unfold moons. pose proof (perturb_labels noise draw (moons_exact sep num)) as E.
  rewrite (L _ _ E), (with_label_map 1 _ _ E), (with_label_map 0 _ _ E). unfold moons_exact, inner_moon, outer_moon.
  rewrite !with_label_app, !app_length, !map_length, !linspace_length.
  rewrite (with_label_same 1 (fun p => p)), (with_label_other 0 1 (fun p => p)) by lra.
  rewrite (with_label_same 0 (fun p => p)), (with_label_other 1 0 (fun p => p)) by lra.
  rewrite !map_length, !linspace_length. repeat split; lia.
Qed.
Theorem moons_circles : forall sep draw num p c, In (p, c) (moons sep 0 draw num) ->
  (c = 1 /\ lower_half sep p) \/ (c = 0 /\ upper_half (0, 0) p).
Proof.
  intros sep draw num p c H. unfold moons in H. rewrite perturb_none in H.
  destruct (moons_exact_in _ _ _ _ H) as [[E [L _]]|[E [L _]]]; [left|right]; split; assumption.
Qed.
Lemma noise_bound : forall noise z, 0 <= noise -> -2 <= z <= 2 -> - (2 * noise) <= noise * z <= 2 * noise.
Proof. intros noise z H0 H1. split; nra. Qed.
Theorem moons_inside : forall sep noise draw num p c, 0 <= noise ->
  (forall i, -2 <= fst (draw i) <= 2 /\ -2 <= snd (draw i) <= 2) ->
  In (p, c) (moons sep noise draw num) -> inside (moons_range sep noise) p.
Proof.
  intros sep noise draw num p c N D H. destruct (perturb_in _ _ _ _ _ H) as [i [q [Hq ->]]].
  destruct (D i) as [D1 D2]. pose proof (noise_bound _ _ N D1) as B1. pose proof (noise_bound _ _ N D2) as B2.
  unfold inside, moons_range. cbn [fst snd].
  pose proof (Rmin_l (-1) (fst sep - 1)). pose proof (Rmin_r (-1) (fst sep - 1)).
  pose proof (Rmax_l 1 (fst sep + 1)). pose proof (Rmax_r 1 (fst sep + 1)).
  pose proof (Rmin_l 0 (snd sep - 1)). pose proof (Rmin_r 0 (snd sep - 1)).
  pose proof (Rmax_l 1 (snd sep)). pose proof (Rmax_r 1 (snd sep)).
  destruct (moons_exact_in _ _ _ _ Hq) as [[_ [[_ L] [X Y]]]|[_ [[_ L] [X Y]]]]; cbn [snd] in L; split; lra.
Qed.
Theorem moons_apart : forall draw num, consistent (moons (1, 1 / 2) 0 draw num).
Proof.
  intros draw num p c c' H H'. destruct p as [x y].
  destruct (moons_circles _ _ _ _ _ H) as [[-> [A B]]|[-> [A B]]]; destruct (moons_circles _ _ _ _ _ H') as [[-> [A' B']]|[-> [A' B']]];
    try reflexivity; exfalso; cbn [fst snd] in *; nra.
Qed.

(** * Spirals *)
Lemma half_up_value : forall num, half_up num = ((num + 1) / 2)%nat.
Proof.
  intros num. unfold half_up.
  assert (E : (- (Z.of_nat num / -2) = Z.of_nat ((num + 1) / 2))%Z); [|now rewrite E, Nat2Z.id].
  rewrite Nat2Z.inj_div, Nat2Z.inj_add. change (Z.of_nat 1) with 1%Z. change (Z.of_nat 2) with 2%Z.
  pose proof (Z.div_mod (Z.of_nat num) (-2) ltac:(lia)) as A. pose proof (Z.mod_neg_bound (Z.of_nat num) (-2) ltac:(lia)) as B.
  pose proof (Z.div_mod (Z.of_nat num + 1) 2 ltac:(lia)) as C. pose proof (Z.mod_pos_bound (Z.of_nat num + 1) 2 ltac:(lia)) as D. lia.
Qed.
Lemma spiral_in : forall num p c, In (p, c) (spiral num) <->
  exists i, (i < half_up num)%nat /\ ((c = -1 /\ p = spiral_xy i 1) \/ (c = 1 /\ p = spiral_xy i (-1))).
Proof.
  intros num p c. unfold spiral. rewrite in_app_iff, !in_map_iff. split.
  - intros [[i [E Hi]]|[i [E Hi]]]; apply in_seq in Hi; injection E as <- <-; exists i; split; try lia; [left|right]; split; reflexivity.
  - intros [i [Hi [[-> ->]|[-> ->]]]]; [left|right]; exists i; (split; [reflexivity | apply in_seq; lia]).
Qed.
(** Squared distance to the centre. *)
Lemma spiral_radius : forall i s, s * s = 1 ->
  (fst (spiral_xy i s) - 1 / 2) * (fst (spiral_xy i s) - 1 / 2) + (snd (spiral_xy i s) - 1 / 2) * (snd (spiral_xy i s) - 1 / 2) =
  (70 / 1352) * (70 / 1352) * ((104 - INR i) * (104 - INR i)).
Proof.
  intros i s Hs. unfold spiral_xy. cbn [fst snd]. set (phi := INR i / 16 * PI). pose proof (sin2_cos2 phi) as E. unfold Rsqr in E.
  set (d := 104 - INR i). set (u := cos phi) in *. set (v := sin phi) in *.
  replace ((70 * (d / 104) * u * s / 13 + 1 / 2 - 1 / 2) * (70 * (d / 104) * u * s / 13 + 1 / 2 - 1 / 2) +
           (70 * (d / 104) * v * s / 13 + 1 / 2 - 1 / 2) * (70 * (d / 104) * v * s / 13 + 1 / 2 - 1 / 2))
    with ((70 / 1352) * (70 / 1352) * (d * d) * (v * v + u * u) * (s * s)) by field.
  rewrite E, Hs. ring.
Qed.
Lemma spiral_same : forall i j s t, s * s = 1 -> t * t = 1 -> (i < 104)%nat -> (j < 104)%nat ->
  spiral_xy i s = spiral_xy j t -> i = j /\ s = t.
Proof.
  intros i j s t Hs Ht Hi Hj E. pose proof (spiral_radius i s Hs) as A. rewrite E, (spiral_radius j t Ht) in A.
  assert (Ri : INR i <= 103) by (replace 103 with (INR 103) by (cbn; lra); apply le_INR; lia).
  assert (Rj : INR j <= 103) by (replace 103 with (INR 103) by (cbn; lra); apply le_INR; lia).
  assert (F : (INR i - INR j) * (208 - INR i - INR j) = 0) by nra.
  apply Rmult_integral in F as [F|F]; [|lra]. assert (Eij : i = j) by (apply INR_eq; lra). subst j. split; [reflexivity|].
  unfold spiral_xy in E. injection E as E1 E2. set (phi := INR i / 16 * PI) in *. pose proof (sin2_cos2 phi) as T. unfold Rsqr in T.
  set (u := cos phi) in *. set (v := sin phi) in *. set (d := 104 - INR i) in *. assert (D : 1 <= d) by (unfold d; lra).
  assert (G1 : d * u * (s - t) = 0) by lra. assert (G2 : d * v * (s - t) = 0) by lra.
  apply Rmult_integral in G1 as [G1|G1]; [|lra]. apply Rmult_integral in G2 as [G2|G2]; [|lra].
  apply Rmult_integral in G1 as [G1|G1]; [lra|]. apply Rmult_integral in G2 as [G2|G2]; [lra|]. rewrite G1, G2 in T. lra.
Qed.
Lemma NoDup_two : forall {A} (l l' : list A), NoDup l -> NoDup l' -> (forall x, In x l -> ~ In x l') -> NoDup (l ++ l')%list.
Proof.
  intros A. induction l as [|x l IH]; intros l' N N' D; [exact N'|]. cbn [app]. apply NoDup_cons_iff in N as [Nx Nl]. constructor.
  - intros H. apply in_app_iff in H as [H|H]; [contradiction|]. exact (D x (or_introl eq_refl) H).
  - apply IH; [assumption | assumption |]. intros z Hz. apply D. now right.
Qed.
Lemma NoDup_image : forall {A B} (f : A -> B) l, (forall a b, In a l -> In b l -> f a = f b -> a = b) -> NoDup l -> NoDup (map f l).
Proof.
  intros A B f. induction l as [|x l IH]; intros I N; [constructor|]. apply NoDup_cons_iff in N as [Nx Nl]. cbn [map]. constructor.
  - intros H. apply in_map_iff in H as [y [E Hy]]. apply Nx. rewrite <- (I y x (or_intror Hy) (or_introl eq_refl) E). exact Hy.
  - apply IH; [|exact Nl]. intros a b Ha Hb. apply I; right; assumption.
Qed.
Theorem spiral_consistent : forall num, (num <= 208)%nat -> consistent (spiral num) /\ NoDup (map fst (spiral num)).
Proof.
  intros num H. assert (Hh : (half_up num <= 104)%nat).
  { rewrite half_up_value. apply Nat.lt_succ_r, Nat.div_lt_upper_bound; lia. }
  split.
  - intros p c c' H1 H2. apply spiral_in in H1 as [i [Hi H1]]. apply spiral_in in H2 as [j [Hj H2]].
    destruct H1 as [[-> ->]|[-> ->]]; destruct H2 as [[-> E]|[-> E]]; try reflexivity; exfalso;
      (apply spiral_same in E as [_ E]; [lra | lra | lra | lia | lia]).
  - unfold spiral. rewrite map_app, !map_map. cbn [fst]. 
    assert (NI : forall s, s * s = 1 -> NoDup (map (fun i => spiral_xy i s) (seq 0 (half_up num)))).
    { intros s Hs. apply NoDup_image.
      - intros a b Ha Hb E. apply in_seq in Ha. apply in_seq in Hb. exact (proj1 (spiral_same a b s s Hs Hs ltac:(lia) ltac:(lia) E)).
      - apply seq_NoDup. }
    apply NoDup_two; [apply NI; lra | apply NI; lra |].
    intros p Hp Hq. apply in_map_iff in Hp as [i [<- Hi]]. apply in_map_iff in Hq as [j [E Hj]]. apply in_seq in Hi. apply in_seq in Hj.
    destruct (spiral_same j i (-1) 1 ltac:(lra) ltac:(lra) ltac:(lia) ltac:(lia) E). lra.
Qed.
(** Twice the same point. *)
Lemma spiral_middle : forall s, spiral_xy 104 s = (1 / 2, 1 / 2).
Proof. intros s. unfold spiral_xy. replace (INR 104) with 104 by (cbn; lra). f_equal; field. Qed.
Lemma half_up_le : forall a num, (2 * a <= num + 1)%nat -> (a <= half_up num)%nat.
Proof. intros a num H. rewrite half_up_value. apply Nat.div_le_lower_bound; lia. Qed.
Theorem spiral_contradicts : forall num, (209 <= num)%nat -> In ((1 / 2, 1 / 2), -1) (spiral num) /\ In ((1 / 2, 1 / 2), 1) (spiral num).
Proof.
  intros num H. assert (L : (105 <= half_up num)%nat) by (apply half_up_le; lia).
  split; apply spiral_in; exists 104%nat; (split; [lia|]); [left|right]; (split; [reflexivity|]); now rewrite spiral_middle.
Qed.
Lemma spiral_eight : spiral_xy 8 1 = (1 / 2, 70 * 96 / 1352 + 1 / 2).
Proof.
  unfold spiral_xy. replace (INR 8) with 8 by (cbn; lra). replace (8 / 16 * PI) with (PI / 2) by lra.
  rewrite cos_PI2, sin_PI2. f_equal; field.
Qed.
Theorem spiral_outside : forall num, (17 <= num)%nat -> exists p, In (p, -1) (spiral num) /\ ~ inside spiral_range p.
Proof.
  intros num H. exists (spiral_xy 8 1). split.
  - apply spiral_in. exists 8%nat. split; [|left; split; reflexivity].
    assert (L : (9 <= half_up num)%nat) by (apply half_up_le; lia). lia.
  - rewrite spiral_eight. unfold inside, spiral_range. cbn [fst snd]. lra.
Qed.
Theorem spiral_bounds : forall num p c, (num <= 416)%nat -> In (p, c) (spiral num) ->
  -5 <= fst p <= 6 /\ -5 <= snd p <= 6.
Proof.
  intros num p c H Hp. apply spiral_in in Hp as [i [Hi Hp]].
  assert (Hh : (half_up num <= 208)%nat) by (rewrite half_up_value; apply Nat.lt_succ_r, Nat.div_lt_upper_bound; lia).
  assert (R0 : 0 <= INR i) by apply pos_INR.
  assert (R1 : INR i <= 208) by (replace 208 with (INR 208) by (cbn; lra); apply le_INR; lia).
  assert (Q : forall s, s * s = 1 -> -5 <= fst (spiral_xy i s) <= 6 /\ -5 <= snd (spiral_xy i s) <= 6).
  { intros s Hs. pose proof (spiral_radius i s Hs) as A. set (x := fst (spiral_xy i s) - 1 / 2) in *. set (y := snd (spiral_xy i s) - 1 / 2) in *.
    assert (B : (104 - INR i) * (104 - INR i) <= 104 * 104) by nra.
    assert (C : x * x + y * y <= 30) by lra.
    assert (X : -5.5 <= x <= 5.5) by (split; nra). assert (Y : -5.5 <= y <= 5.5) by (split; nra). unfold x, y in X, Y. lra. }
  destruct Hp as [[_ ->]|[_ ->]]; apply Q; lra.
Qed.
Theorem spiral_counts : forall num, length (spiral num) = (2 * ((num + 1) / 2))%nat /\
  with_label (-1) (spiral num) = ((num + 1) / 2)%nat /\ with_label 1 (spiral num) = ((num + 1) / 2)%nat.
Proof.
  intros num. unfold spiral. rewrite !with_label_app, app_length, !map_length, seq_length, half_up_value.
  rewrite (with_label_same (-1) (fun i => spiral_xy i 1)), (with_label_other 1 (-1) (fun i => spiral_xy i (-1))) by lra.
  rewrite (with_label_same 1 (fun i => spiral_xy i (-1))), (with_label_other (-1) 1 (fun i => spiral_xy i 1)) by lra.
  rewrite seq_length. repeat split; lia.
Qed.
