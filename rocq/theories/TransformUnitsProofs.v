(** Changing the units of measure of the data: proofs. *)
From Verif Require Import Base Cache CacheSpec Beautify TransformTree TransformSpec TransformProofs
  RVec RVecProofs TransformR TransformRSpec TransformRProofs TransformRTree TransformRExamples TransformUnitsSpec.
Open Scope R_scope.

(** ** Columns in other units *)

Lemma other_units_column d a b m m' j : other_units d a b m m' -> (j < d)%nat ->
  column j m' = map (fun v => a j * v + b j) (column j m).
Proof.
  intros H Hj. induction H as [|r r' m m' Hr Hm IH]; [reflexivity|].
  unfold column in *. cbn [map]. rewrite IH, (Hr j Hj). reflexivity.
Qed.

Lemma affine_split a b l : a <> 0 ->
  map (fun v => a * v + b) l = map (fun v => v - - b) (map (fun v => v / / a) l).
Proof. intros Ha. rewrite map_map. apply map_ext. intros v. field. exact Ha. Qed.

Lemma mean_affine a b l : a <> 0 -> l <> [] -> mean (map (fun v => a * v + b) l) = a * mean l + b.
Proof.
  intros Ha Hl. rewrite affine_split by exact Ha.
  rewrite mean_map_minus_const by (now destruct l). rewrite mean_map_div. field. exact Ha.
Qed.
Lemma std_affine a b l : 0 < a -> (2 <= length l)%nat -> std (map (fun v => a * v + b) l) = a * std l.
Proof.
  intros Ha Hl. rewrite affine_split by lra. rewrite std_shift.
  - rewrite std_div; [field; lra|now apply Rinv_0_lt_compat|exact Hl].
  - destruct l; [cbn in Hl; lia|discriminate].
Qed.
Lemma lmin_affine a b l : 0 < a -> l <> [] -> lmin (map (fun v => a * v + b) l) = a * lmin l + b.
Proof. intros Ha Hl. apply (lmin_map_mono (fun v => a * v + b)); [exact Hl|]. intros x y H. nra. Qed.
Lemma lmax_affine a b l : 0 < a -> l <> [] -> lmax (map (fun v => a * v + b) l) = a * lmax l + b.
Proof. intros Ha Hl. apply (lmax_map_mono (fun v => a * v + b)); [exact Hl|]. intros x y H. nra. Qed.

Lemma standard_value_affine a b c v : 0 < a -> (2 <= length c)%nat -> EPS <= std c -> EPS <= a * std c ->
  standard_value (map (fun v => a * v + b) c) (a * v + b) = standard_value c v.
Proof.
  intros Ha Hc H1 H2. unfold standard_value. assert (Hn : c <> []) by (destruct c; [cbn in Hc; lia|discriminate]).
  rewrite mean_affine, std_affine by (lra || assumption).
  rewrite !Rmax_left by assumption. pose proof EPS_pos. field. split; lra.
Qed.
Lemma rescaled_value_affine a b c v : 0 < a -> c <> [] -> EPS <= lmax c - lmin c -> EPS <= a * (lmax c - lmin c) ->
  rescaled_value (map (fun v => a * v + b) c) (a * v + b) = rescaled_value c v.
Proof.
  intros Ha Hc H1 H2. unfold rescaled_value.
  rewrite lmin_affine, lmax_affine by assumption.
  replace (a * lmax c + b - (a * lmin c + b)) with (a * (lmax c - lmin c)) by ring.
  rewrite !Rmax_left by assumption. pose proof EPS_pos. field. split; lra.
Qed.

Lemma columns_eq d (m m' : mat) : rect d m -> rect d m' -> length m = length m' ->
  (forall j, (j < d)%nat -> column j m = column j m') -> m = m'.
Proof.
  intros Hm. revert m'. induction Hm as [|r m Hr Hm IH]; intros [|r' m'] Hm' Hl H; try discriminate Hl; [reflexivity|].
  inversion Hm' as [|x y Hr' Hm'']; subst x y.
  assert (E1 : r = r').
  { apply (vec_ext d); [exact Hr|exact Hr'|]. intros j Hj. specialize (H j Hj). unfold column in H. cbn [map] in H. congruence. }
  assert (E2 : m = m').
  { apply IH; [exact Hm''|cbn in Hl; congruence|]. intros j Hj. specialize (H j Hj).
    unfold column in *. cbn [map] in H. congruence. }
  now rewrite E1, E2.
Qed.

Section Values.
  Context {D : Type}.
  Variables (feat : D -> mat) (kmat : D -> D -> mat) (sample : D) (d : nat).
  Hypothesis Hs : rect d (feat sample).
  Let num := explicit_numerics feat kmat sample.

  (** Evaluations of the sample and of other data follow the same formula. *)
  Lemma apply_as_oos s r p x : reached num true s -> requested (t_default s) r = Ok p ->
    ~ In Sphere p -> enough_points p (length (feat sample)) ->
    exists s', apply num true x None r s = (chain_oos num p (object sample s x), s').
  Proof.
    intros Hr Hp Hsp Hn. destruct (reached_inv num true s Hr) as (z & Hz).
    destruct (apply_value num true z s x None r p Hz Hp) as (s' & E & _). exists s'. rewrite E.
    destruct x as [x|]; cbn [option_map value_of object]; [reflexivity|].
    exact (f_equal (fun q => (q, s')) (chain_sample_as_oos feat kmat sample d Hs p Hsp Hn)).
  Qed.

  Lemma standard_chain (X : D) : rect d (feat X) -> (2 <= length (feat sample))%nat ->
    exists o, chain_oos num [UnitVar; MeanCenter] X = Ok (VMat o) /\ rect d o /\ length o = length (feat X) /\
      forall j, (j < d)%nat -> column j o = map (standard_value (column j (feat sample))) (column j (feat X)).
  Proof.
    intros HX H2. assert (Hne : feat sample <> []) by (intros E; rewrite E in H2; cbn in H2; lia).
    set (S := feat sample) in *.
    pose (m := sub_rows S (colwise mean S)).
    assert (Hm : rect d m) by now apply sub_rect.
    assert (Hml : length m = length S) by (unfold m, sub_rows; now rewrite map_length).
    assert (Hmn : m <> []) by (intros E; rewrite E in Hml; destruct S; [congruence|discriminate Hml]).
    assert (Lt : length (colwise mean S) = d) by (rewrite colwise_length; now apply rect_width).
    assert (Lu : length (colwise std m) = d) by (rewrite colwise_length; now apply rect_width).
    exists (div_rows (sub_rows (feat X) (colwise mean S)) (colwise std m)).
    assert (E1 : chain_stat num MeanCenter [] = Ok (VRow (colwise mean S))).
    { unfold chain_stat. cbn. fold S. destruct S; [congruence|reflexivity]. }
    assert (E2 : chain_stat num UnitVar [MeanCenter] = Ok (VRow (colwise std m))).
    { unfold chain_stat, num. rewrite (proj1 (centered_sample feat kmat sample d [] S eq_refl Hs Hne)).
      cbn [bind]. fold m. cbn [estat explicit_numerics real_estat].
      destruct m as [|r [|r' m']]; [congruence|cbn in Hml; lia|reflexivity]. }
    split; [cbn [chain_oos]; rewrite E1, E2; reflexivity|].
    split; [unfold div_rows; apply rect_map_zip; [apply rect_map_zip; assumption|exact Lu]|].
    split; [unfold div_rows, sub_rows; now rewrite !map_length|].
    intros j Hj. unfold div_rows, sub_rows.
    rewrite (column_map_zip _ d), (column_map_zip _ d); try assumption; [|apply rect_map_zip; assumption].
    rewrite map_map. apply map_ext. intros v. unfold standard_value, clamp.
    rewrite !colwise_nth by (rewrite (rect_width d); assumption). unfold m.
    rewrite (sub_column d S Hs Hne mean j Hj), std_shift by now apply column_not_nil. reflexivity.
  Qed.

  Lemma rescaled_chain (X : D) : rect d (feat X) -> (1 <= length (feat sample))%nat ->
    exists o, chain_oos num [MinMax; MinCenter] X = Ok (VMat o) /\ rect d o /\ length o = length (feat X) /\
      forall j, (j < d)%nat -> column j o = map (rescaled_value (column j (feat sample))) (column j (feat X)).
  Proof.
    intros HX H2. assert (Hne : feat sample <> []) by (intros E; rewrite E in H2; cbn in H2; lia).
    set (S := feat sample) in *.
    pose (m := sub_rows S (colwise lmin S)).
    assert (Hm : rect d m) by now apply sub_rect.
    assert (Hml : length m = length S) by (unfold m, sub_rows; now rewrite map_length).
    assert (Hmn : m <> []) by (intros E; rewrite E in Hml; destruct S; [congruence|discriminate Hml]).
    assert (Lt : length (colwise lmin S) = d) by (rewrite colwise_length; now apply rect_width).
    assert (Lu : length (colwise lmax m) = d) by (rewrite colwise_length; now apply rect_width).
    destruct (min_centered_sample feat kmat sample d [] S eq_refl Hs Hne) as [Em Hz].
    exists (div_rows (sub_rows (feat X) (colwise lmin S)) (colwise lmax m)).
    assert (E1 : chain_stat num MinCenter [] = Ok (VRow (colwise lmin S))).
    { unfold chain_stat. cbn. fold S. destruct S; [congruence|reflexivity]. }
    assert (E2 : chain_stat num MinMax [MinCenter] = Ok (VRow (colwise lmax m))).
    { unfold chain_stat, num. rewrite Em. cbn [bind]. fold m. cbn [estat explicit_numerics real_estat parent_is_min].
      destruct m as [|r m']; [congruence|reflexivity]. }
    split; [cbn [chain_oos]; rewrite E1, E2; reflexivity|].
    split; [unfold div_rows; apply rect_map_zip; [apply rect_map_zip; assumption|exact Lu]|].
    split; [unfold div_rows, sub_rows; now rewrite !map_length|].
    intros j Hj. unfold div_rows, sub_rows.
    rewrite (column_map_zip _ d), (column_map_zip _ d); try assumption; [|apply rect_map_zip; assumption].
    rewrite map_map. apply map_ext. intros v. unfold rescaled_value, clamp.
    rewrite !colwise_nth by (rewrite (rect_width d); assumption). unfold m. now rewrite (proj2 (Hz j Hj)).
  Qed.
End Values.

(** ** Two trees, the same observations *)

Lemma standard_value_factor a b c v : 0 < a -> (2 <= length c)%nat ->
  standard_value (map (fun v => a * v + b) c) (a * v + b) =
    a * Rmax (std c) EPS / Rmax (a * std c) EPS * standard_value c v.
Proof.
  intros Ha Hc. unfold standard_value. assert (Hn : c <> []) by (destruct c; [cbn in Hc; lia|discriminate]).
  rewrite mean_affine, std_affine by (lra || assumption).
  pose proof EPS_pos. pose proof (Rmax_r (std c) EPS). pose proof (Rmax_r (a * std c) EPS). field. split; lra.
Qed.
Lemma rescaled_value_factor a b c v : 0 < a -> c <> [] ->
  rescaled_value (map (fun v => a * v + b) c) (a * v + b) =
    a * Rmax (lmax c - lmin c) EPS / Rmax (a * (lmax c - lmin c)) EPS * rescaled_value c v.
Proof.
  intros Ha Hc. unfold rescaled_value. rewrite lmin_affine, lmax_affine by assumption.
  replace (a * lmax c + b - (a * lmin c + b)) with (a * (lmax c - lmin c)) by ring.
  pose proof EPS_pos. pose proof (Rmax_r (lmax c - lmin c) EPS). pose proof (Rmax_r (a * (lmax c - lmin c)) EPS).
  field. split; lra.
Qed.

Lemma units_length d a b m m' : other_units d a b m m' -> length m = length m'.
Proof. intros H. induction H; cbn; congruence. Qed.

Lemma factor_one a s : 0 < a -> EPS <= s -> EPS <= a * s -> a * Rmax s EPS / Rmax (a * s) EPS = 1.
Proof. intros Ha H1 H2. rewrite !Rmax_left by assumption. pose proof EPS_pos. field. split; lra. Qed.

Section Units.
  Context {D D' : Type}.
  Variables (feat : D -> mat) (kmat : D -> D -> mat) (sample : D).
  Variables (feat' : D' -> mat) (kmat' : D' -> D' -> mat) (sample' : D').
  Variables (d : nat) (a b : nat -> R).
  Hypothesis Hs : rect d (feat sample).
  Hypothesis Hs' : rect d (feat' sample').
  Hypothesis Ha : forall j, (j < d)%nat -> 0 < a j.
  Hypothesis Hu : other_units d a b (feat sample) (feat' sample').
  Let num := explicit_numerics feat kmat sample.
  Let num' := explicit_numerics feat' kmat' sample'.

  Section Evaluations.
    Variables (s : tstate val D) (s' : tstate val D') (x x' : option nat).
    Hypothesis Hr : reached num true s.
    Hypothesis Hr' : reached num' true s'.
    Hypothesis Hx : rect d (feat (object sample s x)).
    Hypothesis Hx' : rect d (feat' (object sample' s' x')).
    Hypothesis Hux : other_units d a b (feat (object sample s x)) (feat' (object sample' s' x')).

    Lemma standardize_factor : (2 <= length (feat sample))%nat ->
      exists o o' t t', apply num true x None (Some [RName "standardize"]) s = (Ok (VMat o), t) /\
        apply num' true x' None (Some [RName "standardize"]) s' = (Ok (VMat o'), t') /\
        rect d o /\ rect d o' /\ length o = length o' /\
        forall j, (j < d)%nat -> let spread := std (column j (feat sample)) in
          column j o' = map (fun v => a j * Rmax spread EPS / Rmax (a j * spread) EPS * v) (column j o).
    Proof.
      intros H2. assert (H2' : (2 <= length (feat' sample'))%nat) by (rewrite <- (units_length _ _ _ _ _ Hu); exact H2).
      assert (Hen : forall n, (2 <= n)%nat -> enough_points [UnitVar; MeanCenter] n) by (intros n Hn; split; [lia|auto]).
      assert (Hsp : ~ In Sphere [UnitVar; MeanCenter]) by (cbn; intuition discriminate).
      destruct (apply_as_oos feat kmat sample d Hs s (Some [RName "standardize"]) [UnitVar; MeanCenter] x Hr eq_refl Hsp (Hen _ H2)) as (t & E).
      destruct (apply_as_oos feat' kmat' sample' d Hs' s' (Some [RName "standardize"]) [UnitVar; MeanCenter] x' Hr' eq_refl Hsp (Hen _ H2')) as (t' & E').
      destruct (standard_chain feat kmat sample d Hs _ Hx H2) as (o & Eo & Ho & Lo & Co).
      destruct (standard_chain feat' kmat' sample' d Hs' _ Hx' H2') as (o' & Eo' & Ho' & Lo' & Co').
      exists o, o', t, t'. split; [rewrite Eo in E; exact E|]. split; [rewrite Eo' in E'; exact E'|].
      split; [exact Ho|]. split; [exact Ho'|].
      split; [rewrite Lo, Lo'; exact (units_length _ _ _ _ _ Hux)|].
      intros j Hj spread. rewrite (Co j Hj), (Co' j Hj), (other_units_column d a b _ _ j Hu Hj), (other_units_column d a b _ _ j Hux Hj).
      rewrite !map_map. apply map_ext. intros v. apply standard_value_factor; [now apply Ha|].
      unfold column. now rewrite map_length.
    Qed.

    Lemma rescaling_factor : (1 <= length (feat sample))%nat ->
      exists o o' t t', apply num true x None (Some [RName "minmax_rescaling"]) s = (Ok (VMat o), t) /\
        apply num' true x' None (Some [RName "minmax_rescaling"]) s' = (Ok (VMat o'), t') /\
        rect d o /\ rect d o' /\ length o = length o' /\
        forall j, (j < d)%nat -> let spread := lmax (column j (feat sample)) - lmin (column j (feat sample)) in
          column j o' = map (fun v => a j * Rmax spread EPS / Rmax (a j * spread) EPS * v) (column j o).
    Proof.
      intros H2. assert (H2' : (1 <= length (feat' sample'))%nat) by (rewrite <- (units_length _ _ _ _ _ Hu); exact H2).
      assert (Hen : forall n, (1 <= n)%nat -> enough_points [MinMax; MinCenter] n).
      { intros n Hn. split; [lia|]. cbn. intuition discriminate. }
      assert (Hsp : ~ In Sphere [MinMax; MinCenter]) by (cbn; intuition discriminate).
      destruct (apply_as_oos feat kmat sample d Hs s (Some [RName "minmax_rescaling"]) [MinMax; MinCenter] x Hr eq_refl Hsp (Hen _ H2)) as (t & E).
      destruct (apply_as_oos feat' kmat' sample' d Hs' s' (Some [RName "minmax_rescaling"]) [MinMax; MinCenter] x' Hr' eq_refl Hsp (Hen _ H2')) as (t' & E').
      destruct (rescaled_chain feat kmat sample d Hs _ Hx H2) as (o & Eo & Ho & Lo & Co).
      destruct (rescaled_chain feat' kmat' sample' d Hs' _ Hx' H2') as (o' & Eo' & Ho' & Lo' & Co').
      exists o, o', t, t'. split; [rewrite Eo in E; exact E|]. split; [rewrite Eo' in E'; exact E'|].
      split; [exact Ho|]. split; [exact Ho'|].
      split; [rewrite Lo, Lo'; exact (units_length _ _ _ _ _ Hux)|].
      intros j Hj spread. rewrite (Co j Hj), (Co' j Hj), (other_units_column d a b _ _ j Hu Hj), (other_units_column d a b _ _ j Hux Hj).
      rewrite !map_map. apply map_ext. intros v. apply rescaled_value_factor; [now apply Ha|].
      apply column_not_nil. intros E0. rewrite E0 in H2. cbn in H2. lia.
    Qed.
  End Evaluations.

  Lemma standardize_units s s' x x' : reached num true s -> reached num' true s' ->
    rect d (feat (object sample s x)) -> rect d (feat' (object sample' s' x')) ->
    other_units d a b (feat (object sample s x)) (feat' (object sample' s' x')) ->
    (2 <= length (feat sample))%nat ->
    (forall j, (j < d)%nat -> EPS <= std (column j (feat sample)) /\ EPS <= a j * std (column j (feat sample))) ->
    exists o t t', apply num true x None (Some [RName "standardize"]) s = (Ok (VMat o), t) /\
      apply num' true x' None (Some [RName "standardize"]) s' = (Ok (VMat o), t').
  Proof.
    intros Hr Hr' Hx Hx' Hux H2 He.
    destruct (standardize_factor s s' x x' Hr Hr' Hx Hx' Hux H2) as (o & o' & t & t' & E & E' & Ho & Ho' & Hl & Hc).
    exists o, t, t'. split; [exact E|]. rewrite E'. replace o' with o; [reflexivity|].
    apply (columns_eq d); [exact Ho|exact Ho'|exact Hl|]. intros j Hj. rewrite (Hc j Hj). cbv zeta.
    destruct (He j Hj) as [He1 He2]. rewrite (factor_one _ _ (Ha j Hj) He1 He2).
    rewrite <- (map_id (column j o)) at 1. apply map_ext. intros v. ring.
  Qed.
  Lemma rescaling_units s s' x x' : reached num true s -> reached num' true s' ->
    rect d (feat (object sample s x)) -> rect d (feat' (object sample' s' x')) ->
    other_units d a b (feat (object sample s x)) (feat' (object sample' s' x')) ->
    (1 <= length (feat sample))%nat ->
    (forall j, (j < d)%nat -> let spread := lmax (column j (feat sample)) - lmin (column j (feat sample)) in
       EPS <= spread /\ EPS <= a j * spread) ->
    exists o t t', apply num true x None (Some [RName "minmax_rescaling"]) s = (Ok (VMat o), t) /\
      apply num' true x' None (Some [RName "minmax_rescaling"]) s' = (Ok (VMat o), t').
  Proof.
    intros Hr Hr' Hx Hx' Hux H2 He.
    destruct (rescaling_factor s s' x x' Hr Hr' Hx Hx' Hux H2) as (o & o' & t & t' & E & E' & Ho & Ho' & Hl & Hc).
    exists o, t, t'. split; [exact E|]. rewrite E'. replace o' with o; [reflexivity|].
    apply (columns_eq d); [exact Ho|exact Ho'|exact Hl|]. intros j Hj. rewrite (Hc j Hj). cbv zeta.
    destruct (He j Hj) as [He1 He2]. rewrite (factor_one _ _ (Ha j Hj) He1 He2).
    rewrite <- (map_id (column j o)) at 1. apply map_ext. intros v. ring.
  Qed.
End Units.

(** ** A second time *)

Lemma EPS_le_1 : EPS <= 1.
Proof.
  pose proof EPS_pos. unfold EPS in *. rewrite <- Rinv_1. apply Rinv_le_contravar; [lra|].
  apply pow_R1_Rle. lra.
Qed.

Section Twice.
  Context {D : Type}.
  Variables (feat : D -> mat) (kmat : D -> D -> mat) (sample : D) (d : nat).
  Hypothesis Hs : rect d (feat sample).
  Let num := explicit_numerics feat kmat sample.

  Lemma map_same (f : R -> R) l : (forall v, f v = v) -> map f l = l.
  Proof. intros H. rewrite <- (map_id l) at 2. now apply map_ext. Qed.

  Lemma standardize_fixed s : reached num true s -> (2 <= length (feat sample))%nat ->
    (forall j, (j < d)%nat -> mean (column j (feat sample)) = 0 /\ std (column j (feat sample)) = 1) ->
    forall x, rect d (feat (object sample s x)) ->
    exists t, apply num true x None (Some [RName "standardize"]) s = (Ok (VMat (feat (object sample s x))), t).
  Proof.
    intros Hr H2 Hj x Hx.
    assert (Hen : enough_points [UnitVar; MeanCenter] (length (feat sample))) by (split; [lia|auto]).
    assert (Hsp : ~ In Sphere [UnitVar; MeanCenter]) by (cbn; intuition discriminate).
    destruct (apply_as_oos feat kmat sample d Hs s (Some [RName "standardize"]) [UnitVar; MeanCenter] x Hr eq_refl Hsp Hen) as (t & E).
    destruct (standard_chain feat kmat sample d Hs _ Hx H2) as (o & Eo & Ho & Lo & Co).
    exists t. rewrite Eo in E. rewrite (columns_eq d (feat (object sample s x)) o); [exact E|exact Hx|exact Ho|now symmetry|].
    intros j Hd. rewrite (Co j Hd). symmetry. apply map_same. intros v. unfold standard_value.
    destruct (Hj j Hd) as [-> ->]. rewrite Rmax_left; [field|]. exact EPS_le_1.
  Qed.

  Lemma rescaling_fixed s : reached num true s -> (1 <= length (feat sample))%nat ->
    (forall j, (j < d)%nat -> lmin (column j (feat sample)) = 0 /\ lmax (column j (feat sample)) = 1) ->
    forall x, rect d (feat (object sample s x)) ->
    exists t, apply num true x None (Some [RName "minmax_rescaling"]) s = (Ok (VMat (feat (object sample s x))), t).
  Proof.
    intros Hr H2 Hj x Hx.
    assert (Hen : enough_points [MinMax; MinCenter] (length (feat sample))) by (split; [lia|cbn; intuition discriminate]).
    assert (Hsp : ~ In Sphere [MinMax; MinCenter]) by (cbn; intuition discriminate).
    destruct (apply_as_oos feat kmat sample d Hs s (Some [RName "minmax_rescaling"]) [MinMax; MinCenter] x Hr eq_refl Hsp Hen) as (t & E).
    destruct (rescaled_chain feat kmat sample d Hs _ Hx H2) as (o & Eo & Ho & Lo & Co).
    exists t. rewrite Eo in E. rewrite (columns_eq d (feat (object sample s x)) o); [exact E|exact Hx|exact Ho|now symmetry|].
    intros j Hd. rewrite (Co j Hd). symmetry. apply map_same. intros v. unfold rescaled_value.
    destruct (Hj j Hd) as [-> ->]. rewrite Rmax_left; [field|]. pose proof EPS_le_1. lra.
  Qed.
End Twice.

Section Again.
  Context {D D' : Type}.
  Variables (feat : D -> mat) (kmat : D -> D -> mat) (sample : D).
  Variables (feat' : D' -> mat) (kmat' : D' -> D' -> mat) (sample' : D').
  Variables (d : nat) (s : tstate val D) (s' : tstate val D').
  Hypothesis Hs : rect d (feat sample).
  Let num := explicit_numerics feat kmat sample.
  Let num' := explicit_numerics feat' kmat' sample'.
  Hypothesis Hr : reached num true s.
  Hypothesis Hr' : reached num' true s'.

  Lemma standardize_again t : (2 <= length (feat sample))%nat ->
    (forall j, (j < d)%nat -> EPS <= std (column j (feat sample))) ->
    apply num true None None (Some [RName "standardize"]) s = (Ok (VMat (feat' sample')), t) ->
    forall x, rect d (feat' (object sample' s' x)) ->
    exists t', apply num' true x None (Some [RName "standardize"]) s' = (Ok (VMat (feat' (object sample' s' x))), t').
  Proof.
    intros H2 He E. assert (H1 : (1 <= length (feat sample))%nat) by lia.
    destruct (apply_standardize feat kmat sample d Hs s Hr H1 H2) as (o & t0 & E0 & Ho & Lo & Hc).
    fold num in E0. rewrite E in E0. injection E0 as E0 _. subst o.
    apply (standardize_fixed feat' kmat' sample' d Ho s' Hr'); [now rewrite Lo|].
    intros j Hj. destruct (Hc j Hj) as [Hc1 Hc2]. split; [exact Hc1|]. now apply Hc2, He.
  Qed.
  Lemma rescaling_again t : (1 <= length (feat sample))%nat ->
    (forall j, (j < d)%nat -> EPS <= lmax (column j (feat sample)) - lmin (column j (feat sample))) ->
    apply num true None None (Some [RName "minmax_rescaling"]) s = (Ok (VMat (feat' sample')), t) ->
    forall x, rect d (feat' (object sample' s' x)) ->
    exists t', apply num' true x None (Some [RName "minmax_rescaling"]) s' = (Ok (VMat (feat' (object sample' s' x))), t').
  Proof.
    intros H1 He E.
    destruct (apply_minmax_rescaling feat kmat sample d Hs s Hr H1) as (o & t0 & E0 & Ho & Lo & Hc).
    fold num in E0. rewrite E in E0. injection E0 as E0 _. subst o.
    apply (rescaling_fixed feat' kmat' sample' d Ho s' Hr'); [now rewrite Lo|].
    intros j Hj. destruct (Hc j Hj) as (Hc1 & _ & Hc2). split; [exact Hc1|]. now apply Hc2, He.
  Qed.
End Again.

(** ** Projections on the sphere *)

Lemma div_norms_scaled (c : R) m : 0 < c -> Forall (fun r => EPS <= norm r /\ EPS <= c * norm r) m ->
  div_norms (map (map (Rmult c)) m) (map norm (map (map (Rmult c)) m)) = div_norms m (map norm m).
Proof.
  intros Hc H. rewrite !div_norms_rows. rewrite map_map. apply map_ext_in. intros r Hin.
  apply (proj1 (Forall_forall _ _) H) in Hin. destruct Hin as [H1 H2].
  assert (En : norm (map (Rmult c) r) = c * norm r).
  { replace (map (Rmult c) r) with (map (fun v => v / / c) r) by (apply map_ext; intros v; field; lra).
    rewrite norm_div by now apply Rinv_0_lt_compat. field. lra. }
  rewrite map_map, En. rewrite !clamp_big by assumption. pose proof EPS_pos.
  apply map_ext. intros v. field. split; lra.
Qed.

Section Sphere.
  Context {D D' : Type}.
  Variables (feat : D -> mat) (kmat : D -> D -> mat) (sample : D).
  Variables (feat' : D' -> mat) (kmat' : D' -> D' -> mat) (sample' : D').
  Let num := explicit_numerics feat kmat sample.
  Let num' := explicit_numerics feat' kmat' sample'.

  Lemma normalize_value {U : Type} (f : U -> mat) k sm s x : reached (explicit_numerics f k sm) true s ->
    exists t, apply (explicit_numerics f k sm) true x None (Some [RName "normalize"]) s =
      (Ok (VMat (div_norms (f (object sm s x)) (map norm (f (object sm s x))))), t).
  Proof.
    intros Hr. destruct (reached_inv _ true s Hr) as (z & Hz).
    destruct (apply_value _ true z s x None (Some [RName "normalize"]) [Sphere] Hz eq_refl) as (t & E & _).
    exists t. rewrite E. now destruct x.
  Qed.

  Lemma normalize_scale s s' x x' c : reached num true s -> reached num' true s' -> 0 < c ->
    feat' (object sample' s' x') = map (map (Rmult c)) (feat (object sample s x)) ->
    Forall (fun r => EPS <= norm r /\ EPS <= c * norm r) (feat (object sample s x)) ->
    exists o t t', apply num true x None (Some [RName "normalize"]) s = (Ok (VMat o), t) /\
      apply num' true x' None (Some [RName "normalize"]) s' = (Ok (VMat o), t').
  Proof.
    intros Hr Hr' Hc Hx Hn. destruct (normalize_value feat kmat sample s x Hr) as (t & E).
    destruct (normalize_value feat' kmat' sample' s' x' Hr') as (t' & E'). rewrite Hx, div_norms_scaled in E' by assumption.
    eexists; exists t, t'; split; [exact E|exact E'].
  Qed.
End Sphere.
