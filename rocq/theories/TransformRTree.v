(** Numerical properties of transforms at the level of the tree: proofs. *)
From Verif Require Import Base Cache CacheSpec Beautify TransformTree TransformSpec TransformProofs
  RVec RVecProofs TransformR TransformRSpec TransformRProofs.
Open Scope R_scope.

(** ** Evaluations in a reached state *)

Section Reached.
  Context {V D : Type}.
  Variable num : numerics V D.
  Variable explicit : bool.

  Lemma reached_inv s : reached num explicit s -> exists z, TInv num explicit z s.
  Proof.
    intros (req & level & heap & s0 & os & Hl & Hi & Ha & ->).
    destruct (init_tree_ok num explicit req level heap s0 Hl Hi) as ((z0 & Hz & _) & Hlive & _).
    exact (proj2 (trun_ok num explicit os z0 s0 Hz Hlive Ha)).
  Qed.

  Lemma apply_value z s x y r p : TInv num explicit z s -> requested (t_default s) r = Ok p ->
    exists s', apply num explicit x y r s =
        (value_of num explicit p (option_map (t_heap s) x) (option_map (t_heap s) y), s') /\
      TInv num explicit z s' /\ t_heap s' = t_heap s /\ t_default s' = t_default s.
  Proof.
    intros Hs Hp. destruct (apply_ok num explicit z s x y r Hs) as (s' & E & I & H & Dd & _).
    exists s'. rewrite E, Hp. auto.
  Qed.

  Lemma revert_value z s v r p : TInv num explicit z s -> requested (t_default s) r = Ok p ->
    exists s', revert num explicit v r s = (revert_of num explicit p v, s').
  Proof.
    intros Hs Hp. destruct (revert_ok num explicit z s v r Hs) as (s' & E & _).
    exists s'. rewrite E, Hp. auto.
  Qed.
End Reached.

Section Explicit.
  Context {D : Type}.
  Variables (feat : D -> mat) (kmat : D -> D -> mat) (sample : D) (d : nat).
  Hypothesis Hs : rect d (feat sample).
  Let num := explicit_numerics feat kmat sample.

  (** ** Reverting *)

  Lemma apply_then_revert s r p x : reached num true s -> requested (t_default s) r = Ok p ->
    Forall invertible p -> enough_points p (length (feat sample)) -> rect d (feat (t_heap s x)) ->
    exists v s1 s2, apply num true (Some x) None r s = (Ok v, s1) /\
      revert num true v r s1 = (Ok (VMat (feat (t_heap s x))), s2).
  Proof.
    intros Hr Hp Hi Hn Hx. destruct (reached_inv num true s Hr) as (z & Hz).
    destruct (apply_value num true z s (Some x) None r p Hz Hp) as (s1 & E1 & I1 & H1 & D1).
    cbn [option_map value_of] in E1.
    destruct (chain_oos_shape feat kmat sample d Hs p (t_heap s x) Hn Hx) as (o & Eo & _).
    fold num in Eo. rewrite Eo in E1. rewrite <- D1 in Hp.
    destruct (revert_value num true z s1 (VMat o) r p I1 Hp) as (s2 & E2).
    exists (VMat o), s1, s2. split; [exact E1|]. rewrite E2. cbn [revert_of].
    exact (f_equal (fun q => (q, s2)) (chain_revert_oos feat kmat sample d Hs p (t_heap s x) Hi Hn Hx _ Eo)).
  Qed.

  Lemma no_sphere p : Forall invertible p -> ~ In Sphere p.
  Proof. intros H K. apply (proj1 (Forall_forall _ _) H) in K. now apply K. Qed.

  Lemma apply_then_revert_sample s r p : reached num true s -> requested (t_default s) r = Ok p ->
    Forall invertible p -> enough_points p (length (feat sample)) ->
    exists v s1 s2, apply num true None None r s = (Ok v, s1) /\
      revert num true v r s1 = (Ok (VMat (feat sample)), s2).
  Proof.
    intros Hr Hp Hi Hn. destruct (reached_inv num true s Hr) as (z & Hz).
    destruct (apply_value num true z s None None r p Hz Hp) as (s1 & E1 & I1 & H1 & D1).
    cbn [option_map value_of] in E1.
    destruct (chain_oos_shape feat kmat sample d Hs p sample Hn Hs) as (o & Eo & _).
    unfold num in E1. rewrite (chain_sample_as_oos feat kmat sample d Hs p (no_sphere p Hi) Hn) in E1.
    rewrite Eo in E1. rewrite <- D1 in Hp.
    destruct (revert_value num true z s1 (VMat o) r p I1 Hp) as (s2 & E2).
    exists (VMat o), s1, s2. split; [exact E1|]. rewrite E2. cbn [revert_of].
    exact (f_equal (fun q => (q, s2)) (chain_revert_oos feat kmat sample d Hs p sample Hi Hn Hs _ Eo)).
  Qed.

  (** A chain with a sphere is not reverted. *)
  Lemma sphere_not_reverted s r p v : reached num true s -> requested (t_default s) r = Ok p ->
    In Sphere p -> enough_points p (length (feat sample)) ->
    exists s', revert num true v r s = (Err EBijection, s').
  Proof.
    intros Hr Hp Hi Hn. destruct (reached_inv num true s Hr) as (z & Hz).
    destruct (revert_value num true z s v r p Hz Hp) as (s' & E). exists s'. rewrite E. cbn [revert_of].
    exact (f_equal (fun q => (q, s')) (chain_revert_sphere feat kmat sample d Hs p v Hi Hn)).
  Qed.

  (** ** Points on the sphere *)

  Lemma norm_row r : on_sphere r (map (fun v => v / clamp (norm r)) r).
  Proof.
    destruct (sphere_row r) as [H1 H2]. destruct (ratio_clamp (norm r) (norm_nonneg r)) as [H3 H4].
    unfold on_sphere. rewrite H1. split; [exact H3|]. split; [exact H4|]. symmetry. exact H2.
  Qed.

  Lemma norm_rows m : Forall2 on_sphere m (div_norms m (map norm m)).
  Proof.
    rewrite div_norms_rows. induction m as [|r m IH]; cbn [map]; constructor; [apply norm_row|exact IH].
  Qed.

  Lemma value_sphere p x m : value_of num true p x None = Ok (VMat m) ->
    value_of num true (Sphere :: p) x None = Ok (VMat (div_norms m (map norm m))).
  Proof. destruct x as [x|]; cbn [value_of chain_oos chain_sample]; intros ->; reflexivity. Qed.

  Lemma apply_sphere s r p x : reached num true s -> requested (t_default s) r = Ok (Sphere :: p) ->
    enough_points p (length (feat sample)) -> (forall i, x = Some i -> rect d (feat (t_heap s i))) ->
    exists m o s', value_of num true p (option_map (t_heap s) x) None = Ok (VMat m) /\
      apply num true x None r s = (Ok (VMat o), s') /\ Forall2 on_sphere m o.
  Proof.
    intros Hr Hp Hn Hx. destruct (reached_inv num true s Hr) as (z & Hz).
    assert (Hm : exists m, value_of num true p (option_map (t_heap s) x) None = Ok (VMat m)).
    { destruct x as [x|]; cbn [option_map value_of].
      - destruct (chain_oos_shape feat kmat sample d Hs p (t_heap s x) Hn (Hx x eq_refl)) as (m & E & _). now exists m.
      - destruct (chain_sample_shape feat kmat sample d Hs p Hn) as (m & E & _). now exists m. }
    destruct Hm as (m & Em).
    destruct (apply_value num true z s x None r _ Hz Hp) as (s' & E & _).
    exists m, (div_norms m (map norm m)), s'. split; [exact Em|]. split; [|apply norm_rows].
    rewrite E. cbn [option_map]. now rewrite (value_sphere p _ m Em).
  Qed.

  (** ** Statistics of the transformed sample *)

  Section Stats.
    Variables (s : tstate val D) (r : option (list treq)) (p : path).
    Hypothesis Hr : reached num true s.

    Lemma sample_value c : requested (t_default s) r = Ok (c :: p) ->
      exists s', apply num true None None r s = (chain_sample num (c :: p), s').
    Proof.
      intros Hp. destruct (reached_inv num true s Hr) as (z & Hz).
      destruct (apply_value num true z s None None r _ Hz Hp) as (s' & E & _). now exists s'.
    Qed.

    Lemma before c : enough_points (c :: p) (length (feat sample)) ->
      exists m, chain_sample num p = Ok (VMat m) /\ rect d m /\ m <> [] /\ length m = length (feat sample).
    Proof.
      intros [H1 H2]. destruct (chain_sample_shape feat kmat sample d Hs p) as (m & E & Hm & Hl).
      { split; [exact H1|]. intros H. apply H2. now right. }
      exists m. split; [exact E|]. split; [exact Hm|]. split; [|exact Hl].
      intros ->. rewrite <- Hl in H1. cbn in H1. lia.
    Qed.

    Lemma apply_mean_center : requested (t_default s) r = Ok (MeanCenter :: p) ->
      enough_points (MeanCenter :: p) (length (feat sample)) ->
      exists o s', apply num true None None r s = (Ok (VMat o), s') /\ rect d o /\ length o = length (feat sample) /\
        forall j, (j < d)%nat -> mean (column j o) = 0.
    Proof.
      intros Hp Hn. destruct (sample_value _ Hp) as (s' & E). destruct (before _ Hn) as (m & Em & Hm & Hne & Hl).
      destruct (centered_sample feat kmat sample d p m Em Hm Hne) as [E1 E2].
      exists (sub_rows m (colwise mean m)), s'. rewrite E. split; [exact (f_equal (fun q => (q, s')) E1)|].
      split; [now apply sub_rect|]. split; [unfold sub_rows; now rewrite map_length|exact E2].
    Qed.

    Lemma apply_min_center : requested (t_default s) r = Ok (MinCenter :: p) ->
      enough_points (MinCenter :: p) (length (feat sample)) ->
      exists o s', apply num true None None r s = (Ok (VMat o), s') /\ rect d o /\ length o = length (feat sample) /\
        forall j, (j < d)%nat -> lmin (column j o) = 0.
    Proof.
      intros Hp Hn. destruct (sample_value _ Hp) as (s' & E). destruct (before _ Hn) as (m & Em & Hm & Hne & Hl).
      destruct (min_centered_sample feat kmat sample d p m Em Hm Hne) as [E1 E2].
      exists (sub_rows m (colwise lmin m)), s'. rewrite E. split; [exact (f_equal (fun q => (q, s')) E1)|].
      split; [now apply sub_rect|]. split; [unfold sub_rows; now rewrite map_length|]. intros j Hj. now apply E2.
    Qed.

    Lemma apply_unit_var : requested (t_default s) r = Ok (UnitVar :: p) ->
      enough_points (UnitVar :: p) (length (feat sample)) ->
      exists m o s', chain_sample num p = Ok (VMat m) /\
        apply num true None None r s = (Ok (VMat o), s') /\ rect d o /\ length o = length (feat sample) /\
        forall j, (j < d)%nat -> EPS <= std (column j m) -> std (column j o) = 1.
    Proof.
      intros Hp Hn. destruct (sample_value _ Hp) as (s' & E). destruct (before _ Hn) as (m & Em & Hm & Hne & Hl).
      assert (H2 : (2 <= length m)%nat) by (rewrite Hl; apply Hn; now left).
      destruct (unit_variance_sample feat kmat sample d p m Em Hm Hne H2) as [E1 E2].
      exists m, (div_rows m (colwise std m)), s'. split; [exact Em|]. rewrite E. split; [exact (f_equal (fun q => (q, s')) E1)|].
      split; [now apply div_rect|]. split; [unfold div_rows; now rewrite map_length|].
      intros j Hj He. destruct (E2 j Hj) as [_ ->]. now apply ratio_clamp; [apply std_nonneg|].
    Qed.
  End Stats.

  (** Usual requests by name. *)
  Section Named.
    Variable s : tstate val D.
    Hypothesis Hr : reached num true s.
    Hypothesis H1 : (1 <= length (feat sample))%nat.
    Let m0 := feat sample.
    Let Hne : m0 <> [].
    Proof. subst m0. intros E. rewrite E in H1. cbn in H1. lia. Qed.

    Lemma apply_standardize : (2 <= length (feat sample))%nat ->
      exists o s', apply num true None None (Some [RName "standardize"]) s = (Ok (VMat o), s') /\ rect d o /\
        length o = length (feat sample) /\
        forall j, (j < d)%nat -> mean (column j o) = 0 /\
          (EPS <= std (column j (feat sample)) -> std (column j o) = 1).
    Proof.
      intros H2. pose (m := sub_rows m0 (colwise mean m0)).
      destruct (centered_sample feat kmat sample d [] m0 eq_refl Hs Hne) as [Em Hz].
      assert (Hm : rect d m) by now apply sub_rect.
      assert (Hl : length m = length m0) by (unfold m, sub_rows; now rewrite map_length).
      assert (Hmn : m <> []) by (intros E; rewrite E in Hl; now destruct m0).
      destruct (unit_variance_sample feat kmat sample d [MeanCenter] m Em Hm Hmn) as [E1 E2]; [rewrite Hl; exact H2|].
      destruct (sample_value s (Some [RName "standardize"]) [MeanCenter] Hr UnitVar eq_refl) as (s' & E).
      exists (div_rows m (colwise std m)), s'. rewrite E. split; [exact (f_equal (fun q => (q, s')) E1)|].
      split; [now apply div_rect|]. split; [unfold div_rows; rewrite map_length; exact Hl|].
      intros j Hj. destruct (E2 j Hj) as [Ea Eb]. rewrite Ea, Eb.
      assert (Hstd : std (column j m) = std (column j m0)).
      { unfold m. rewrite (sub_column d m0 Hs Hne mean j Hj).
        apply std_shift. now apply column_not_nil. }
      split.
      - unfold m. rewrite (Hz j Hj). unfold Rdiv. apply Rmult_0_l.
      - intros He. rewrite Hstd. apply ratio_clamp; [apply std_nonneg|exact He].
    Qed.

    Lemma apply_minmax_rescaling :
      exists o s', apply num true None None (Some [RName "minmax_rescaling"]) s = (Ok (VMat o), s') /\ rect d o /\
        length o = length (feat sample) /\
        forall j, (j < d)%nat -> lmin (column j o) = 0 /\ lmax (column j o) <= 1 /\
          (EPS <= lmax (column j (feat sample)) - lmin (column j (feat sample)) -> lmax (column j o) = 1).
    Proof.
      pose (m := sub_rows m0 (colwise lmin m0)).
      destruct (min_centered_sample feat kmat sample d [] m0 eq_refl Hs Hne) as [Em Hz].
      assert (Hm : rect d m) by now apply sub_rect.
      assert (Hl : length m = length m0) by (unfold m, sub_rows; now rewrite map_length).
      assert (Hmn : m <> []) by (intros E; rewrite E in Hl; now destruct m0).
      destruct (min_max_sample feat kmat sample d [MinCenter] m Em Hm Hmn) as [E1 E2].
      cbn [parent_is_min] in E1, E2.
      destruct (sample_value s (Some [RName "minmax_rescaling"]) [MinCenter] Hr MinMax eq_refl) as (s' & E).
      exists (div_rows m (colwise (fun l => lmax l) m)), s'. rewrite E.
      split; [exact (f_equal (fun q => (q, s')) E1)|].
      split; [now apply div_rect|]. split; [unfold div_rows; rewrite map_length; exact Hl|].
      intros j Hj. destruct (E2 j Hj) as [Ea Eb]. rewrite Ea, Eb. destruct (Hz j Hj) as [Hz1 Hz2].
      unfold m. rewrite Hz1, Hz2. split; [unfold Rdiv; apply Rmult_0_l|].
      apply ratio_clamp. pose proof (lmin_le_lmax (column j m0) (column_not_nil j m0 Hne)). lra.
    Qed.

    Lemma apply_minmax :
      exists o s', apply num true None None (Some [RName "minmax"]) s = (Ok (VMat o), s') /\ rect d o /\
        length o = length (feat sample) /\
        forall j, (j < d)%nat -> lmax (column j o) - lmin (column j o) <= 1 /\
          (EPS <= lmax (column j (feat sample)) - lmin (column j (feat sample)) ->
           lmax (column j o) - lmin (column j o) = 1).
    Proof.
      destruct (min_max_sample feat kmat sample d [] m0 eq_refl Hs Hne) as [E1 E2].
      cbn [parent_is_min] in E1, E2.
      destruct (sample_value s (Some [RName "minmax"]) [] Hr MinMax eq_refl) as (s' & E).
      exists (div_rows m0 (colwise (fun l => lmax l - lmin l) m0)), s'. rewrite E.
      split; [exact (f_equal (fun q => (q, s')) E1)|].
      split; [now apply div_rect|]. split; [unfold div_rows; now rewrite map_length|].
      intros j Hj. destruct (E2 j Hj) as [Ea Eb]. rewrite Ea, Eb.
      set (sp := lmax (column j m0) - lmin (column j m0)).
      replace (lmax (column j m0) / clamp sp - lmin (column j m0) / clamp sp) with (sp / clamp sp)
        by (unfold sp at 1, Rdiv; ring).
      apply ratio_clamp. pose proof (lmin_le_lmax (column j m0) (column_not_nil j m0 Hne)). subst sp. lra.
    Qed.
  End Named.

  (** ** Kernel matrices of explicit kernels *)

  (** The linear combination of rows with the given coefficients. *)
  Fixpoint lincomb (c : vec) (m : mat) : vec :=
    match c, m with
    | a :: c', r :: m' => zipw Rplus (map (fun v => a * v) r) (lincomb c' m')
    | _, _ => map (fun _ => 0) (seq 0 d)
    end.
  Lemma lincomb_length c m : rect d m -> length (lincomb c m) = d.
  Proof.
    intros H. revert c. induction H as [|r m Hr Hm IH]; intros [|a c]; cbn [lincomb];
      try (now rewrite map_length, seq_length).
    rewrite zipw_length; rewrite ?map_length; [exact Hr|]. now rewrite IH.
  Qed.
  Lemma dot_zeros l x : dot (map (fun _ : nat => 0) l) x = 0.
  Proof.
    revert x. induction l as [|i l IH]; intros [|v x]; try reflexivity. cbn [map]. rewrite dot_cons, IH. ring.
  Qed.
  Lemma dot_lincomb c m x : rect d m -> dot (lincomb c m) x = dot c (map (fun r => dot r x) m).
  Proof.
    intros H. revert c. induction H as [|r m Hr Hm IH]; intros [|a c]; cbn [lincomb map];
      rewrite ?dot_nil_l, ?dot_nil_r; try apply dot_zeros.
    rewrite dot_zipw_plus_l by (rewrite map_length, lincomb_length; assumption).
    now rewrite dot_scal_l, IH, dot_cons.
  Qed.
  Lemma quad_gram m c : rect d m -> quad (gram m m) c = dot (lincomb c m) (lincomb c m).
  Proof.
    intros Hm. unfold quad, gram. rewrite map_map. rewrite dot_lincomb by exact Hm. f_equal. apply map_ext. intros r.
    rewrite (dot_comm r), dot_lincomb by exact Hm. f_equal. apply map_ext. intros q. apply dot_comm.
  Qed.
  Lemma gram_psd m c : rect d m -> 0 <= quad (gram m m) c.
  Proof. intros Hm. rewrite quad_gram by exact Hm. apply dot_self_nonneg. Qed.

  Lemma value_shape s p x : enough_points p (length (feat sample)) -> rect d (feat (object sample s x)) ->
    exists m, value_of num true p (option_map (t_heap s) x) None = Ok (VMat m) /\ rect d m /\
      length m = length (feat (object sample s x)).
  Proof.
    intros Hn Hx. destruct x as [x|]; cbn [option_map value_of object] in *.
    - apply (chain_oos_shape feat kmat sample d Hs p (t_heap s x) Hn Hx).
    - apply (chain_sample_shape feat kmat sample d Hs p Hn).
  Qed.

  Lemma explicit_k_value s r p same x y : reached num true s -> requested (t_default s) r = Ok p ->
    enough_points p (length (feat sample)) -> rect d (feat (object sample s x)) -> rect d (feat (object sample s y)) ->
    (same = true -> option_map (t_heap s) x = option_map (t_heap s) y) ->
    exists a b s', value_of num true p (option_map (t_heap s) x) None = Ok (VMat a) /\
      value_of num true p (option_map (t_heap s) y) None = Ok (VMat b) /\
      explicit_k num same x y r s = (Ok (VMat (gram a b)), s') /\ rect d a /\ rect d b /\
      length a = length (feat (object sample s x)) /\ length b = length (feat (object sample s y)).
  Proof.
    intros Hr Hp Hn Hx Hy Hsame. destruct (reached_inv num true s Hr) as (z & Hz).
    destruct (value_shape s p x Hn Hx) as (a & Ea & Ha & La). destruct (value_shape s p y Hn Hy) as (b & Eb & Hb & Lb).
    destruct (apply_value num true z s x None r p Hz Hp) as (s1 & E1 & I1 & H1 & D1).
    cbn [option_map] in E1. rewrite Ea in E1. unfold explicit_k, mbind. rewrite E1. destruct same.
    - exists a, b, s1. rewrite (Hsame eq_refl), Eb in Ea. injection Ea as <-.
      rewrite (Hsame eq_refl). auto 10.
    - rewrite <- D1 in Hp. destruct (apply_value num true z s1 y None r p I1 Hp) as (s2 & E2 & _).
      rewrite H1 in E2. cbn [option_map] in E2. rewrite Eb in E2. rewrite E2. exists a, b, s2. auto 10.
  Qed.

  Lemma sample_matrix_psd s r p : reached num true s -> requested (t_default s) r = Ok p ->
    enough_points p (length (feat sample)) ->
    exists k s', explicit_k num true None None r s = (Ok (VMat k), s') /\ length k = length (feat sample) /\
      rect (length (feat sample)) k /\ symmetric k /\ forall c, 0 <= quad k c.
  Proof.
    intros Hr Hp Hn.
    destruct (explicit_k_value s r p true None None Hr Hp Hn Hs Hs (fun _ => eq_refl))
      as (a & b & s' & Ea & Eb & E & Ha & Hb & La & Lb).
    assert (a = b) by congruence. subst b. exists (gram a a), s'. split; [exact E|]. cbn [object] in La.
    rewrite gram_length. split; [exact La|]. split; [rewrite <- La; apply gram_rect|]. split.
    - apply transpose_gram. intros ->. destruct Hn as [Hn _]. rewrite <- La in Hn. cbn in Hn. lia.
    - intros c. now apply gram_psd.
  Qed.

  Lemma k_transposed s r p same x y : reached num true s -> requested (t_default s) r = Ok p ->
    enough_points p (length (feat sample)) -> rect d (feat (object sample s x)) -> rect d (feat (object sample s y)) ->
    feat (object sample s x) <> [] ->
    (same = true -> option_map (t_heap s) x = option_map (t_heap s) y) ->
    exists k s1 s2, explicit_k num same x y r s = (Ok (VMat k), s1) /\
      explicit_k num same y x r s = (Ok (VMat (transpose k)), s2).
  Proof.
    intros Hr Hp Hn Hx Hy Hne Hsame.
    destruct (explicit_k_value s r p same x y Hr Hp Hn Hx Hy Hsame) as (a & b & s1 & Ea & Eb & E & Ha & Hb & La & Lb).
    destruct (explicit_k_value s r p same y x Hr Hp Hn Hy Hx (fun H => eq_sym (Hsame H)))
      as (b' & a' & s2 & Eb' & Ea' & E' & _).
    rewrite Ea in Ea'. rewrite Eb in Eb'. injection Ea' as <-. injection Eb' as <-.
    exists (gram a b), s1, s2. split; [exact E|]. rewrite transpose_gram; [exact E'|].
    intros ->. destruct (feat (object sample s x)); [congruence|discriminate].
  Qed.
End Explicit.
