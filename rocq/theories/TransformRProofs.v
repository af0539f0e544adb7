(** Proofs about the numerical content of the transforms. *)
From Verif Require Import Base Cache CacheSpec Beautify TransformTree TransformSpec TransformProofs TransformRefutations
  RVec RVecProofs TransformR TransformRSpec.
Open Scope R_scope.

Lemma clamp_pos x : 0 < clamp x.
Proof. unfold clamp. pose proof EPS_pos. pose proof (Rmax_r x EPS). lra. Qed.
Lemma clamp_big x : EPS <= x -> clamp x = x.
Proof. intros H. unfold clamp. now apply Rmax_left. Qed.
Lemma clamp_ge x : x <= clamp x.
Proof. apply Rmax_l. Qed.

(** ** One transform *)

Lemma add_sub_rows d m t : rect d m -> length t = d -> add_rows (sub_rows m t) t = m.
Proof.
  intros H Ht. unfold add_rows, sub_rows. rewrite map_map. rewrite <- (map_id m) at 2.
  apply map_ext_in. intros r Hr. apply (proj1 (Forall_forall _ _) H) in Hr. clear H m.
  revert t d Ht Hr. induction r as [|v r IH]; intros [|u t] d Ht Hr; cbn in *; try reflexivity; try congruence.
  f_equal; [ring|]. destruct d; [discriminate|]. apply (IH t d); congruence.
Qed.
Lemma mul_div_rows d m t : rect d m -> length t = d -> mul_rows (div_rows m t) t = m.
Proof.
  intros H Ht. unfold mul_rows, div_rows. rewrite map_map. rewrite <- (map_id m) at 2.
  apply map_ext_in. intros r Hr. apply (proj1 (Forall_forall _ _) H) in Hr. clear H m.
  revert t d Ht Hr. induction r as [|v r IH]; intros [|u t] d Ht Hr; cbn in *; try reflexivity; try congruence.
  f_equal; [field; pose proof (clamp_pos u); lra|]. destruct d; [discriminate|]. apply (IH t d); congruence.
Qed.

Lemma erev_eapp d c x t : invertible c -> rect d x -> length t = d ->
  real_erev c (real_eapp c (VMat x) (VRow t)) (VRow t) = VMat x.
Proof.
  intros Hc Hx Ht. destruct c; [now contradiction Hc|..]; cbn; f_equal;
    (eapply add_sub_rows + eapply mul_div_rows); eassumption.
Qed.

Lemma div_norms_rows m : div_norms m (map norm m) = map (fun r => map (fun v => v / clamp (norm r)) r) m.
Proof. unfold div_norms. rewrite zipw_map_r, zipw_same. reflexivity. Qed.

(** ** Shapes along a chain *)

Section Shapes.
  Context {D : Type}.
  Variable feat : D -> mat.
  Variable kmat : D -> D -> mat.
  Variable sample : D.
  Variable d : nat.
  Notation num := (explicit_numerics feat kmat sample).
  Hypothesis Hs : rect d (feat sample).

  Lemma estat_shape c b m : c <> Sphere -> rect d m -> m <> [] -> (c = UnitVar -> (2 <= length m)%nat) ->
    exists t, real_estat c b (VMat m) = VRow t /\ length t = d.
  Proof.
    intros Hc Hm Hn H2. pose proof (rect_width d m Hm Hn) as Hw. destruct m as [|r m]; [congruence|].
    destruct c; [congruence|..]; cbn [real_estat];
      try (eexists; split; [reflexivity|]; now rewrite colwise_length).
    destruct m as [|r' m]; [specialize (H2 eq_refl); cbn in H2; lia|].
    eexists; split; [reflexivity|]. now rewrite colwise_length.
  Qed.

  Lemma eapp_shape c m t : c <> Sphere -> rect d m -> length t = d ->
    exists m', real_eapp c (VMat m) (VRow t) = VMat m' /\ rect d m' /\ length m' = length m.
  Proof.
    intros Hc Hm Ht. destruct c; [congruence|..]; cbn; eexists; (split; [reflexivity|]);
      (split; [now apply rect_map_zip|apply map_length]).
  Qed.
  Lemma sphere_shape m :  rect d m ->
    rect d (div_norms m (map norm m)) /\ length (div_norms m (map norm m)) = length m.
  Proof.
    intros Hm. rewrite div_norms_rows. split; [|apply map_length].
    apply rect_map_rows; [intros r; apply map_length|exact Hm].
  Qed.

  Lemma not_nil {A} (l : list A) n : length l = n -> (1 <= n)%nat -> l <> [].
  Proof. intros <- H ->. cbn in H. lia. Qed.

  Lemma chain_sample_shape p : enough_points p (length (feat sample)) ->
    exists m, chain_sample num p = Ok (VMat m) /\ rect d m /\ length m = length (feat sample).
  Proof.
    intros [H1 H2]. induction p as [|c p IH]; [exists (feat sample); auto|].
    destruct IH as (m & Em & Hm & Hl); [intros H; apply H2; now right|].
    cbn [chain_sample]. rewrite Em. cbn [bind eapp estat explicit_numerics].
    destruct (cls_eqb c Sphere) eqn:Ec.
    - destruct c; try discriminate. cbn. destruct (sphere_shape m Hm) as [K1 K2].
      eexists. split; [reflexivity|]. split; [exact K1|congruence].
    - assert (Hc : c <> Sphere) by (intros ->; discriminate).
      destruct (estat_shape c (parent_is_min p) m Hc Hm) as (t & Et & Ht).
      { eapply not_nil; [exact Hl|exact H1]. }
      { intros ->. rewrite Hl. apply H2. now left. }
      rewrite Et. destruct (eapp_shape c m t Hc Hm Ht) as (m' & E' & Hm' & Hl').
      exists m'. rewrite E'. split; [reflexivity|]. split; [exact Hm'|congruence].
  Qed.

  Lemma chain_stat_shape c p : c <> Sphere -> enough_points (c :: p) (length (feat sample)) ->
    exists t, chain_stat num c p = Ok (VRow t) /\ length t = d.
  Proof.
    intros Hc [H1 H2]. destruct (chain_sample_shape p) as (m & Em & Hm & Hl).
    { split; [exact H1|]. intros H. apply H2. now right. }
    unfold chain_stat. rewrite Em. cbn [bind estat explicit_numerics].
    destruct (estat_shape c (parent_is_min p) m Hc Hm) as (t & Et & Ht).
    { eapply not_nil; [exact Hl|exact H1]. }
    { intros ->. rewrite Hl. apply H2. now left. }
    exists t. now rewrite Et.
  Qed.

  Lemma chain_oos_shape p x : enough_points p (length (feat sample)) -> rect d (feat x) ->
    exists o, chain_oos num p x = Ok (VMat o) /\ rect d o /\ length o = length (feat x).
  Proof.
    intros H Hx. induction p as [|c p IH]; [exists (feat x); auto|].
    assert (H' : enough_points p (length (feat sample))).
    { destruct H as [H1 H2]. split; [exact H1|]. intros K. apply H2. now right. }
    destruct (IH H') as (o & Eo & Ho & Hl). cbn [chain_oos]. rewrite Eo. cbn [bind].
    destruct (cls_eqb c Sphere) eqn:Ec.
    - destruct c; try discriminate. cbn. destruct (sphere_shape o Ho) as [K1 K2].
      eexists. split; [reflexivity|]. split; [exact K1|congruence].
    - assert (Hc : c <> Sphere) by (intros ->; discriminate).
      destruct (chain_stat_shape c p Hc H) as (t & Et & Ht).
      assert (Es : match c with
                   | Sphere => Ok (estat num Sphere (parent_is_min p) (VMat o))
                   | _ => chain_stat num c p
                   end = Ok (VRow t)) by (destruct c; [congruence|exact Et..]).
      rewrite Es. cbn [bind eapp explicit_numerics].
      destruct (eapp_shape c o t Hc Ho Ht) as (m' & E' & Hm' & Hl').
      exists m'. rewrite E'. split; [reflexivity|]. split; [exact Hm'|congruence].
  Qed.

  (** ** Reverting *)
  Lemma chain_revert_oos p x : Forall invertible p -> enough_points p (length (feat sample)) -> rect d (feat x) ->
    forall o, chain_oos num p x = Ok o -> chain_revert num p o = Ok (VMat (feat x)).
  Proof.
    intros Hp H Hx. induction p as [|c p IH]; intros o Eo; [cbn in *; congruence|].
    inversion Hp as [|? ? Hc Hp']; subst.
    assert (H' : enough_points p (length (feat sample))).
    { destruct H as [H1 H2]. split; [exact H1|]. intros K. apply H2. now right. }
    destruct (chain_stat_shape c p Hc H) as (t & Et & Ht).
    destruct (chain_oos_shape p x H' Hx) as (y & Ey & Hy & _).
    assert (Eo' : chain_oos num (c :: p) x = Ok (real_eapp c (VMat y) (VRow t))).
    { cbn [chain_oos]. rewrite Ey. cbn [bind]. destruct c; [now contradiction Hc|..]; rewrite Et; reflexivity. }
    rewrite Eo' in Eo. injection Eo as <-.
    assert (Er : chain_revert num (c :: p) (real_eapp c (VMat y) (VRow t)) =
                 chain_revert num p (real_erev c (real_eapp c (VMat y) (VRow t)) (VRow t))).
    { cbn [chain_revert]. destruct c; [now contradiction Hc|..]; rewrite Et; reflexivity. }
    rewrite Er, (erev_eapp d) by assumption. apply (IH Hp' H'). exact Ey.
  Qed.

  Lemma chain_sample_as_oos p : ~ In Sphere p -> enough_points p (length (feat sample)) ->
    chain_sample num p = chain_oos num p sample.
  Proof.
    intros Hp H. induction p as [|c p IH]; [reflexivity|].
    assert (H' : enough_points p (length (feat sample))).
    { destruct H as [H1 H2]. split; [exact H1|]. intros K. apply H2. now right. }
    destruct (chain_sample_shape p H') as (m & Em & _).
    cbn [chain_sample chain_oos]. rewrite <- IH by (auto; intros K; apply Hp; now right).
    rewrite Em. cbn [bind].
    assert (Hc : c <> Sphere) by (intros ->; apply Hp; now left).
    unfold chain_stat. rewrite Em. cbn [bind]. destruct c; [congruence|reflexivity..].
  Qed.

  Lemma chain_revert_sphere p v : In Sphere p -> enough_points p (length (feat sample)) ->
    chain_revert num p v = Err EBijection.
  Proof.
    intros Hp. revert v. induction p as [|c p IH]; [easy|]. intros v H.
    destruct (cls_eqb c Sphere) eqn:Ec; [destruct c; try discriminate; reflexivity|].
    assert (Hc : c <> Sphere) by (intros ->; discriminate).
    destruct Hp as [->|Hp]; [congruence|].
    destruct (chain_stat_shape c p Hc H) as (t & Et & _).
    assert (H' : enough_points p (length (feat sample))).
    { destruct H as [H1 H2]. split; [exact H1|]. intros K. apply H2. now right. }
    assert (Er : chain_revert num (c :: p) v = chain_revert num p (real_erev c v (VRow t))).
    { cbn [chain_revert]. destruct c; [congruence|..]; rewrite Et; reflexivity. }
    rewrite Er. apply IH; assumption.
  Qed.

  (** ** Statistics of transformed samples *)
  Section Statistics.
    Variable p : path.
    Variable m : mat.
    Hypothesis Em : chain_sample num p = Ok (VMat m).
    Hypothesis Hm : rect d m.
    Hypothesis Hn : m <> [].

    Lemma column_not_nil j (k : mat) : k <> [] -> column j k <> [].
    Proof. intros H. destruct k; [congruence|discriminate]. Qed.
    Lemma width_m : width m = d.
    Proof. now apply rect_width. Qed.

    Lemma stat_row c f : (forall b, real_estat c b (VMat m) = VRow (colwise (f b) m)) ->
      chain_sample num (c :: p) = Ok (real_eapp c (VMat m) (VRow (colwise (f (parent_is_min p)) m))).
    Proof. intros H. cbn [chain_sample]. rewrite Em. cbn [bind eapp estat explicit_numerics]. now rewrite H. Qed.

    Lemma sub_column (f : vec -> R) j : (j < d)%nat ->
      column j (sub_rows m (colwise f m)) = map (fun v => v - f (column j m)) (column j m).
    Proof.
      intros Hj. unfold sub_rows. rewrite (column_map_zip _ d) by (auto; now rewrite colwise_length, width_m).
      rewrite colwise_nth by (now rewrite width_m). reflexivity.
    Qed.
    Lemma div_column (f : vec -> R) j : (j < d)%nat ->
      column j (div_rows m (colwise f m)) = map (fun v => v / clamp (f (column j m))) (column j m).
    Proof.
      intros Hj. unfold div_rows.
      rewrite (column_map_zip (fun v t => v / clamp t) d) by (auto; now rewrite colwise_length, width_m).
      rewrite colwise_nth by (now rewrite width_m). reflexivity.
    Qed.
    Lemma sub_rect f : rect d (sub_rows m (colwise f m)).
    Proof. apply rect_map_zip; [exact Hm|]. now rewrite colwise_length, width_m. Qed.
    Lemma div_rect f : rect d (div_rows m (colwise f m)).
    Proof. apply rect_map_zip; [exact Hm|]. now rewrite colwise_length, width_m. Qed.

    Lemma centered_sample :
      chain_sample num (MeanCenter :: p) = Ok (VMat (sub_rows m (colwise mean m))) /\
      forall j, (j < d)%nat -> mean (column j (sub_rows m (colwise mean m))) = 0.
    Proof.
      split.
      - rewrite (stat_row MeanCenter (fun _ => mean)); [reflexivity|]. intros b. now destruct m; [congruence|].
      - intros j Hj. rewrite sub_column, mean_map_minus_const by (auto using column_not_nil). lra.
    Qed.
    Lemma min_centered_sample :
      chain_sample num (MinCenter :: p) = Ok (VMat (sub_rows m (colwise lmin m))) /\
      forall j, (j < d)%nat -> lmin (column j (sub_rows m (colwise lmin m))) = 0 /\
        lmax (column j (sub_rows m (colwise lmin m))) = lmax (column j m) - lmin (column j m).
    Proof.
      split.
      - rewrite (stat_row MinCenter (fun _ => lmin)); [reflexivity|]. intros b. now destruct m; [congruence|].
      - intros j Hj. rewrite sub_column by exact Hj.
        rewrite (lmin_map_mono (fun v => v - lmin (column j m))), (lmax_map_mono (fun v => v - lmin (column j m)));
          try (apply column_not_nil, Hn); try (intros; lra).
    Qed.
    Lemma unit_variance_sample : (2 <= length m)%nat ->
      chain_sample num (UnitVar :: p) = Ok (VMat (div_rows m (colwise std m))) /\
      forall j, (j < d)%nat ->
        mean (column j (div_rows m (colwise std m))) = mean (column j m) / clamp (std (column j m)) /\
        std (column j (div_rows m (colwise std m))) = std (column j m) / clamp (std (column j m)).
    Proof.
      intros H2. split.
      - rewrite (stat_row UnitVar (fun _ => std)); [reflexivity|]. intros b.
        destruct m as [|r [|r' m']]; [congruence|cbn in H2; lia|reflexivity].
      - intros j Hj. rewrite div_column by exact Hj. split; [apply mean_map_div|].
        apply std_div; [apply clamp_pos|now rewrite column_length].
    Qed.
    Lemma min_max_sample :
      chain_sample num (MinMax :: p) =
        Ok (VMat (div_rows m (colwise (fun l => if parent_is_min p then lmax l else lmax l - lmin l) m))) /\
      forall j, (j < d)%nat ->
        let t := clamp (if parent_is_min p then lmax (column j m) else lmax (column j m) - lmin (column j m)) in
        lmin (column j (div_rows m (colwise (fun l => if parent_is_min p then lmax l else lmax l - lmin l) m))) =
          lmin (column j m) / t /\
        lmax (column j (div_rows m (colwise (fun l => if parent_is_min p then lmax l else lmax l - lmin l) m))) =
          lmax (column j m) / t.
    Proof.
      split.
      - rewrite (stat_row MinMax (fun b l => if b then lmax l else lmax l - lmin l)); [reflexivity|].
        intros b. now destruct m; [congruence|].
      - intros j Hj. cbv zeta. rewrite div_column by exact Hj.
        set (t := clamp _).
        assert (Ht : forall x y, x <= y -> x / t <= y / t).
        { intros x y H. apply Rmult_le_compat_r; [|exact H]. apply Rlt_le, Rinv_0_lt_compat, clamp_pos. }
        rewrite (lmin_map_mono (fun v => v / t)), (lmax_map_mono (fun v => v / t)); auto using column_not_nil.
    Qed.
  End Statistics.

  (** ** Sphere *)
  Lemma sphere_row r :
    norm (map (fun v => v / clamp (norm r)) r) = norm r / clamp (norm r) /\
    map (fun v => clamp (norm r) * v) (map (fun v => v / clamp (norm r)) r) = r.
  Proof.
    split; [apply norm_div, clamp_pos|]. rewrite map_map.
    transitivity (map (fun v => v) r); [|apply map_id].
    apply map_ext. intros v. pose proof (clamp_pos (norm r)). field. lra.
  Qed.
End Shapes.

Lemma ratio_clamp x : 0 <= x -> x / clamp x <= 1 /\ (EPS <= x -> x / clamp x = 1).
Proof.
  intros Hx. pose proof (clamp_pos x) as Hc. pose proof (clamp_ge x) as Hg. split.
  - apply (Rmult_le_reg_r (clamp x)); [exact Hc|]. unfold Rdiv. rewrite Rmult_assoc, Rinv_l by lra. lra.
  - intros H. rewrite clamp_big by exact H. field. pose proof EPS_pos. lra.
Qed.

(** ** Implicit against explicit *)

Lemma sqrt_EPS : EPS <= sqrt EPS /\ 0 < sqrt EPS /\ sqrt EPS * sqrt EPS = EPS.
Proof.
  pose proof EPS_pos as H. assert (H1 : EPS < 1).
  { unfold EPS. rewrite <- Rinv_1. apply Rinv_lt_contravar; lra. }
  pose proof (sqrt_lt_R0 EPS H) as H2. pose proof (sqrt_sqrt EPS (Rlt_le _ _ H)) as H3.
  assert (sqrt EPS < 1) by (rewrite <- sqrt_1; apply sqrt_lt_1_alt; lra).
  split; [nra|]. split; assumption.
Qed.

Lemma map_const_length {A B C} (f : C) (a : list A) (b : list B) : length a = length b ->
  map (fun _ => f) a = map (fun _ => f) b.
Proof. revert b. induction a as [|x a IH]; intros [|y b] H; cbn in *; try congruence. f_equal. auto. Qed.

Lemma center2_gram d a b s : s <> [] -> rect d s -> rect d a -> rect d b ->
  center2 (gram a b) (map mean (gram a s)) (map mean (gram b s)) (mean (map mean (gram s s))) =
  gram (sub_rows a (colwise mean s)) (sub_rows b (colwise mean s)).
Proof.
  intros Hn Hs Ha Hb. set (m := colwise mean s).
  assert (Lm : length m = d) by (subst m; now rewrite colwise_length, (rect_width d)).
  assert (Em : forall r, length r = d -> mean (map (dot r) s) = dot r m).
  { intros r Hr. symmetry. now apply (dot_colmean d). }
  assert (Et : mean (map mean (gram s s)) = dot m m).
  { unfold gram. rewrite map_map. rewrite (map_ext_in _ (dot m)).
    - now apply Em.
    - intros r Hr. rewrite dot_comm. apply Em. exact (proj1 (Forall_forall _ _) Hs r Hr). }
  rewrite Et. unfold center2, gram, sub_rows. rewrite !map_map, zipw_map_r, zipw_map_l, zipw_same.
  apply map_ext_in. intros r Hr. rewrite zipw_map_r, zipw_map_l, zipw_same, ?map_map. apply map_ext_in. intros q Hq.
  apply (proj1 (Forall_forall _ _) Ha) in Hr. apply (proj1 (Forall_forall _ _) Hb) in Hq.
  rewrite !Em by assumption.
  rewrite dot_zipw_minus_l, !dot_zipw_minus_r by congruence. rewrite (dot_comm m q). ring.
Qed.

Lemma scale2_gram a b : (forall r, In r a -> sqrt EPS <= norm r) -> (forall r, In r b -> sqrt EPS <= norm r) ->
  scale2 (gram a b) (map norm a) (map norm b) = gram (div_norms a (map norm a)) (div_norms b (map norm b)).
Proof.
  intros Ha Hb. rewrite !div_norms_rows. unfold scale2, gram. rewrite !map_map, zipw_map_r, zipw_map_l, zipw_same.
  apply map_ext_in. intros r Hr. rewrite zipw_map_r, zipw_map_l, zipw_same, map_map. apply map_ext_in. intros q Hq.
  rewrite dot_div_l, dot_div_r. destruct sqrt_EPS as (H1 & H2 & H3). specialize (Ha r Hr). specialize (Hb q Hq).
  rewrite !clamp_big by (lra || nra). field. split; lra.
Qed.

Lemma not_negative_squares (a : mat) : some_negative (map (fun x => dot x x) a) = false.
Proof.
  unfold some_negative. induction a as [|x a IH]; [reflexivity|]. cbn [map existsb]. rewrite IH, orb_false_r.
  destruct (Rlt_dec (dot x x) 0) as [H|H]; [pose proof (dot_self_nonneg x); lra|reflexivity].
Qed.
Lemma sqrt_diag_gram a : real_sqrt (real_diag (VMat (gram a a))) = VCol (map norm a).
Proof.
  cbn [real_diag real_sqrt]. rewrite diag_gram, not_negative_squares. f_equal. now rewrite map_map.
Qed.

Section Agree.
  Context {D : Type}.
  Variable feat : D -> mat.
  Variable sample : D.
  Variable d : nat.
  Notation kmat := (fun x y => gram (feat x) (feat y)).
  Notation nume := (explicit_numerics feat kmat sample).
  Notation numk := (implicit_numerics feat kmat sample).
  Hypothesis Hs : rect d (feat sample).
  Hypothesis Hn : feat sample <> [].

  Lemma kernelised_points p : Forall kernelised p -> enough_points p (length (feat sample)).
  Proof.
    intros H. split.
    - destruct (feat sample); [congruence|]. cbn. lia.
    - intros K. apply (proj1 (Forall_forall _ _) H) in K. destruct K; discriminate.
  Qed.

  Definition in_sample (p : path) : mat :=
    match chain_sample nume p with Ok (VMat m) => m | _ => [] end.
  Definition outside (p : path) (x : D) : mat :=
    match chain_oos nume p x with Ok (VMat m) => m | _ => [] end.

  Lemma in_sample_ok p : Forall kernelised p ->
    chain_sample nume p = Ok (VMat (in_sample p)) /\ rect d (in_sample p) /\ in_sample p <> [].
  Proof.
    intros H. destruct (chain_sample_shape feat kmat sample d Hs p (kernelised_points p H)) as (m & E & Hm & Hl).
    unfold in_sample. rewrite E. split; [reflexivity|]. split; [exact Hm|].
    intros ->. destruct (feat sample); [congruence|discriminate].
  Qed.
  Lemma outside_ok p x : Forall kernelised p -> rect d (feat x) ->
    chain_oos nume p x = Ok (VMat (outside p x)) /\ rect d (outside p x) /\ length (outside p x) = length (feat x).
  Proof.
    intros H Hx. destruct (chain_oos_shape feat kmat sample d Hs p x (kernelised_points p H) Hx) as (m & E & Hm & Hl).
    unfold outside. rewrite E. auto.
  Qed.

  (** One step of the explicit chain. *)
  Lemma in_sample_mean p : Forall kernelised p ->
    in_sample (MeanCenter :: p) = sub_rows (in_sample p) (colwise mean (in_sample p)).
  Proof.
    intros H. destruct (in_sample_ok p H) as (E & Hm & Hne).
    destruct (centered_sample feat kmat sample d p _ E Hm Hne) as [E' _].
    unfold in_sample at 1. now rewrite E'.
  Qed.
  Lemma outside_mean p x : Forall kernelised p -> rect d (feat x) ->
    outside (MeanCenter :: p) x = sub_rows (outside p x) (colwise mean (in_sample p)).
  Proof.
    intros H Hx. destruct (in_sample_ok p H) as (E & Hm & Hne). destruct (outside_ok p x H Hx) as (Ex & _).
    unfold outside at 1. cbn [chain_oos]. rewrite Ex. cbn [bind]. unfold chain_stat. rewrite E. cbn [bind].
    destruct (in_sample p) eqn:Ei; [congruence|]. reflexivity.
  Qed.
  Lemma in_sample_sphere p : Forall kernelised p ->
    in_sample (Sphere :: p) = div_norms (in_sample p) (map norm (in_sample p)).
  Proof.
    intros H. destruct (in_sample_ok p H) as (E & Hm & Hne).
    unfold in_sample at 1. cbn [chain_sample]. rewrite E. reflexivity.
  Qed.
  Lemma outside_sphere p x : Forall kernelised p -> rect d (feat x) ->
    outside (Sphere :: p) x = div_norms (outside p x) (map norm (outside p x)).
  Proof.
    intros H Hx. destruct (outside_ok p x H Hx) as (E & _).
    unfold outside at 1. cbn [chain_oos]. rewrite E. reflexivity.
  Qed.

  Lemma mean_stat p : Forall kernelised p -> kchain_sample numk p = Ok (VMat (gram (in_sample p) (in_sample p))) ->
    kchain_stat numk MeanCenter p =
    Ok (VMeans (map mean (gram (in_sample p) (in_sample p))) (mean (map mean (gram (in_sample p) (in_sample p))))).
  Proof.
    intros H E. destruct (in_sample_ok p H) as (_ & _ & Hne). unfold kchain_stat. rewrite E.
    cbn [bind istat implicit_numerics real_istat]. destruct (in_sample p); [congruence|]. reflexivity.
  Qed.
  Lemma sphere_stat p : kchain_sample numk p = Ok (VMat (gram (in_sample p) (in_sample p))) ->
    kchain_stat numk Sphere p = Ok (VCol (map norm (in_sample p))).
  Proof.
    intros E. unfold kchain_stat. rewrite E. cbn [bind istat implicit_numerics real_istat].
    exact (f_equal Ok (sqrt_diag_gram (in_sample p))).
  Qed.

  Lemma ksample_agrees p : Forall kernelised p -> away nume p None ->
    kchain_sample numk p = Ok (VMat (gram (in_sample p) (in_sample p))).
  Proof.
    intros H Ha. induction p as [|c p IH]; [reflexivity|].
    inversion H as [|? ? Hc Hp]; subst. destruct Ha as [Ha Hsph]. specialize (IH Hp Ha).
    destruct (in_sample_ok p Hp) as (E & Hm & Hne).
    cbn [kchain_sample]. destruct Hc as [-> | ->]; rewrite IH; cbn [bind istat implicit_numerics].
    - pose proof (mean_stat p Hp IH) as Es. unfold kchain_stat in Es. rewrite IH in Es.
      cbn [bind istat implicit_numerics] in Es. rewrite Es. cbn [bind iapp_sample implicit_numerics real_iapp_sample].
      rewrite in_sample_mean by exact Hp. now rewrite (center2_gram d).
    - pose proof (sphere_stat p IH) as Es. unfold kchain_stat in Es. rewrite IH in Es.
      cbn [bind istat implicit_numerics] in Es. rewrite Es. cbn [bind iapp_sample implicit_numerics real_iapp_sample].
      rewrite in_sample_sphere by exact Hp. specialize (Hsph eq_refl).
      rewrite scale2_gram; [reflexivity| |]; intros r Hr; apply (Hsph (in_sample p)); auto.
  Qed.

  Lemma kpoint_mean p x : Forall kernelised p ->
    kchain_sample numk p = Ok (VMat (gram (in_sample p) (in_sample p))) ->
    kchain numk p x None = Ok (VMat (gram (outside p x) (in_sample p))) ->
    kpoint_stat numk MeanCenter p (kchain numk p) x =
    Ok (VMeans (map mean (gram (outside p x) (in_sample p))) (mean (map mean (gram (in_sample p) (in_sample p))))).
  Proof.
    intros H E1 E2. unfold kpoint_stat. rewrite E2. cbn [bind]. rewrite (mean_stat p H E1). reflexivity.
  Qed.
  Lemma kpoint_sphere p x : kchain numk p x (Some x) = Ok (VMat (gram (outside p x) (outside p x))) ->
    kpoint_stat numk Sphere p (kchain numk p) x = Ok (VCol (map norm (outside p x))).
  Proof.
    intros E. unfold kpoint_stat. rewrite E. cbn [bind isqrt idiag implicit_numerics].
    now rewrite sqrt_diag_gram.
  Qed.

  Lemma koos_agrees p : Forall kernelised p -> away nume p None ->
    forall x, rect d (feat x) -> away nume p (Some x) ->
    kchain numk p x None = Ok (VMat (gram (outside p x) (in_sample p))) /\
    (forall y, rect d (feat y) -> away nume p (Some y) ->
     kchain numk p x (Some y) = Ok (VMat (gram (outside p x) (outside p y)))).
  Proof.
    intros H Ha. induction p as [|c p IH]; intros x Hx Hax; [split; reflexivity|].
    inversion H as [|? ? Hc Hp]; subst. destruct Ha as [Ha Hsph]. destruct Hax as [Hax Hxs].
    specialize (IH Hp Ha). pose proof (ksample_agrees p Hp Ha) as Ek.
    destruct (in_sample_ok p Hp) as (E & Hm & Hne).
    destruct (outside_ok p x Hp Hx) as (Ex & Hox & _).
    destruct (IH x Hx Hax) as [K1 K2]. cbn [kchain]. destruct Hc as [-> | ->].
    - rewrite (kpoint_mean p x Hp Ek K1), outside_mean, in_sample_mean by assumption. cbn [bind]. split.
      + rewrite (mean_stat p Hp Ek), K1. cbn [bind iapp implicit_numerics real_iapp].
        now rewrite (center2_gram d).
      + intros y Hy [Hay _]. destruct (IH y Hy Hay) as [L1 _]. destruct (outside_ok p y Hp Hy) as (_ & Hoy & _).
        rewrite (kpoint_mean p y Hp Ek L1), (K2 y Hy Hay). cbn [bind iapp implicit_numerics real_iapp].
        rewrite outside_mean by assumption. now rewrite (center2_gram d).
    - rewrite (kpoint_sphere p x (K2 x Hx Hax)), outside_sphere, in_sample_sphere by assumption.
      specialize (Hsph eq_refl). specialize (Hxs eq_refl).
      assert (Nx : forall r, In r (outside p x) -> sqrt EPS <= norm r) by (intros r Hr; apply (Hxs (outside p x)); auto).
      split.
      + rewrite K1, (sphere_stat p Ek). cbn [bind iapp implicit_numerics real_iapp].
        rewrite scale2_gram; auto. intros r Hr. apply (Hsph (in_sample p)); auto.
      + intros y Hy [Hay Hys]. specialize (Hys eq_refl). destruct (IH y Hy Hay) as [_ L2].
        rewrite (K2 y Hy Hay), (kpoint_sphere p y (L2 y Hy Hay)). cbn [bind iapp implicit_numerics real_iapp].
        rewrite (outside_sphere p y) by assumption.
        rewrite scale2_gram; auto. intros r Hr. destruct (outside_ok p y Hp Hy) as (Ey & _).
        apply (Hys (outside p y)); auto.
  Qed.

  Definition given (x : option D) : D := match x with Some x => x | None => sample end.

  Lemma implicit_is_explicit p (x y : option D) : Forall kernelised p ->
    rect d (feat (given x)) -> rect d (feat (given y)) -> feat (given y) <> [] ->
    away nume p None -> away nume p x -> away nume p y ->
    exists a b, value_of nume true p x None = Ok (VMat a) /\ value_of nume true p y None = Ok (VMat b) /\
      value_of numk false p x y = Ok (VMat (gram a b)).
  Proof.
    intros H Hx Hy Hyn Ha Hax Hay. pose proof (ksample_agrees p H Ha) as Ek.
    destruct (in_sample_ok p H) as (E & Hm & Hne).
    destruct x as [x|], y as [y|]; cbn [given] in *.
    - destruct (koos_agrees p H Ha x Hx Hax) as [K1 K2].
      destruct (outside_ok p x H Hx) as (Ex & _). destruct (outside_ok p y H Hy) as (Ey & _).
      exists (outside p x), (outside p y). cbn [value_of]. auto.
    - destruct (koos_agrees p H Ha x Hx Hax) as [K1 K2]. destruct (outside_ok p x H Hx) as (Ex & _).
      exists (outside p x), (in_sample p). cbn [value_of]. auto.
    - destruct (koos_agrees p H Ha y Hy Hay) as [K1 K2]. destruct (outside_ok p y H Hy) as (Ey & _ & Hl).
      exists (in_sample p), (outside p y). cbn [value_of]. split; [exact E|]. split; [exact Ey|].
      rewrite K1. cbn [bind transp implicit_numerics real_transp]. rewrite transpose_gram; [reflexivity|].
      intros E0. rewrite E0 in Hl. destruct (feat y); [congruence|discriminate].
    - exists (in_sample p), (in_sample p). cbn [value_of]. auto.
  Qed.
End Agree.
