(** The state of a Nystrom kernel: proofs. *)
From Verif Require Import Base NystromState.
Open Scope Z_scope.

Section Proofs.
  Context {Row P : Type}.
  Variable rank : P -> list Row -> Z -> Z.
  Notation nstate := (nstate Row P).
  Notation nop := (nop Row P).

  (** * Selections *)
  Lemma rows_at_all (rows : list Row) : rows_at rows (all_rows rows) = Ok rows.
  Proof.
    unfold all_rows. assert (G : forall pre, rows_at (pre ++ rows) (seq (List.length pre) (List.length rows)) = Ok rows).
    { induction rows as [|r rows IH]; intros pre; [reflexivity|]. cbn [List.length seq rows_at].
      rewrite nth_error_app2 by lia. rewrite Nat.sub_diag. cbn [nth_error].
      specialize (IH (pre ++ [r])%list). rewrite <- app_assoc in IH. cbn [app] in IH. rewrite app_length in IH. cbn [List.length] in IH.
      replace (List.length pre + 1)%nat with (S (List.length pre)) in IH by lia. now rewrite IH. }
    exact (G []).
  Qed.
  Lemma rows_at_length (rows : list Row) idx rs : rows_at rows idx = Ok rs -> List.length rs = List.length idx.
  Proof.
    revert rs. induction idx as [|i idx IH]; intros rs; cbn [rows_at].
    - intros H. injection H as <-. reflexivity.
    - destruct (nth_error rows i); [|discriminate]. destruct (rows_at rows idx) as [l|e]; [|discriminate].
      cbn [bind]. intros H. injection H as <-. cbn [List.length]. now rewrite IH.
  Qed.
  Lemma rows_at_out (rows : list Row) idx i : In i idx -> (List.length rows <= i)%nat -> rows_at rows idx = Err EIndexError.
  Proof.
    intros Hi L. induction idx as [|j idx IH]; [destruct Hi|]. cbn [rows_at].
    destruct Hi as [->|Hi].
    - destruct (nth_error rows i) eqn:E; [|reflexivity].
      assert (X : nth_error rows i <> None) by congruence. apply nth_error_Some in X. lia.
    - rewrite (IH Hi). destruct (nth_error rows j); reflexivity.
  Qed.
  Lemma rows_at_in (rows : list Row) idx : Forall (fun i => (i < List.length rows)%nat) idx -> exists rs, rows_at rows idx = Ok rs.
  Proof.
    induction 1 as [|i idx Hi _ (rs & E)]; [now exists []|]. cbn [rows_at]. rewrite E.
    destruct (nth_error rows i) eqn:X; [now eexists|]. apply nth_error_None in X. lia.
  Qed.

  (** * The base kernel looks at the same points *)
  Definition same_points (s : nstate) : Prop :=
    b_rows s = n_rows s /\ b_idx s = n_idx s /\
    forall d, n_phi s = Some d -> rows_at (n_rows s) (n_idx s) = Ok (d_rows d).
  (** Operations that do not initialise the sample with a selection. *)
  Definition full_init (o : nop) : Prop := match o with NInit _ idx => idx = None | _ => True end.

  Lemma compute_frame (s : nstate) : let s' := snd (compute rank s) in
    n_rows s' = n_rows s /\ n_idx s' = n_idx s /\ b_rows s' = b_rows s /\ b_idx s' = b_idx s /\
    b_param s' = b_param s /\ n_level s' = n_level s /\ n_phi s' = n_phi s.
  Proof.
    unfold compute. destruct (rows_at (b_rows s) (b_idx s)) as [rows|e]; [|cbn; auto 10].
    destruct (_ <? n_dim s); [cbn; auto 10|]. cbv zeta. cbn [snd]. destruct (_ <? n_dim s); cbn; auto 10.
  Qed.
  Lemma compute_value (s s' : nstate) d : compute rank s = (Ok d, s') ->
    rows_at (b_rows s) (b_idx s) = Ok (d_rows d) /\ d_param d = b_param s /\ d_dim d = rank (b_param s) (d_rows d) (n_dim s).
  Proof.
    unfold compute. destruct (rows_at (b_rows s) (b_idx s)) as [rows|e]; [|discriminate].
    destruct (_ <? n_dim s); [discriminate|]. cbv zeta. intros H. injection H as <- _. cbn. auto.
  Qed.
  Lemma elements_snd (s : nstate) : snd (elements rank s) = snd (compute rank s).
  Proof. unfold elements. destruct (compute rank s) as ([d|e] & s'); [|reflexivity]. now destruct (Nat.eqb _ _). Qed.
  Lemma elements_value (s s' : nstate) d : elements rank s = (Ok d, s') -> compute rank s = (Ok d, s').
  Proof.
    unfold elements. destruct (compute rank s) as ([d0|e] & s0); [|discriminate]. destruct (Nat.eqb _ _); [discriminate|].
    intros H. now injection H as <- <-.
  Qed.
  Lemma dim_feature_snd (s : nstate) : snd (dim_feature rank s) = snd (compute rank s).
  Proof. unfold dim_feature. now destruct (compute rank s) as ([d|e] & s'). Qed.

  Lemma same_points_step s o : full_init o -> same_points s -> same_points (nstep rank s o).
  Proof.
    intros Ho (H1 & H2 & H3).
    assert (C : same_points (snd (compute rank s))).
    { destruct (compute_frame s) as (F1 & F2 & F3 & F4 & _ & _ & F7). unfold same_points. rewrite F1, F2, F3, F4, F7. auto. }
    destruct o as [idx|rows idx|d|p| | |]; cbn [nstep].
    - repeat split; cbn; try assumption. discriminate.
    - cbn in Ho. subst idx. unfold init_sample. rewrite rows_at_all. cbn. repeat split. discriminate.
    - unfold set_dim. destruct (_ <? d); cbn; [repeat split; assumption|]. repeat split; cbn; try assumption. discriminate.
    - repeat split; cbn; assumption.
    - unfold phi. destruct (n_phi s) eqn:E; [cbn; unfold same_points; rewrite E; auto|].
      destruct (elements rank s) as (r & s') eqn:El. pose proof (elements_snd s) as S. rewrite El in S. cbn [snd] in S. subst s'.
      destruct r as [d|e]; cbn [snd]; [|exact C]. destruct C as (C1 & C2 & C3). split; [exact C1|]. split; [exact C2|].
      cbn. intros d0 H. injection H as <-. apply elements_value, compute_value in El as (El & _).
      destruct (compute_frame s) as (F1 & F2 & _). rewrite F1, F2, <- H1, <- H2. exact El.
    - unfold phi_oos. rewrite elements_snd. exact C.
    - rewrite dim_feature_snd. exact C.
  Qed.
  Lemma same_points_run os s : Forall full_init os -> same_points s -> same_points (nrun rank s os).
  Proof.
    intros H. unfold nrun. revert s. induction H as [|o os Ho _ IH]; intros s Hs; [exact Hs|]. cbn [fold_left].
    apply IH. now apply same_points_step.
  Qed.
  Lemma new_same_points p rows dim level : exists s, new p rows None dim level = Ok s /\ same_points s /\ n_rows s = rows.
  Proof.
    unfold new, init_sample. rewrite rows_at_all. eexists. split; [reflexivity|]. split; [|reflexivity].
    repeat split. discriminate.
  Qed.
  Lemma new_on_same_points p rows idx dim level : same_points (new_on p rows idx dim level).
  Proof. repeat split. discriminate. Qed.

  (** The points decomposed are the selected ones. *)
  Theorem decomposed_points p rows dim level os : Forall full_init os ->
    exists s0, new p rows None dim level = Ok s0 /\ let s := nrun rank s0 os in
      (forall d, fst (phi rank s) = Ok d -> rows_at (n_rows s) (n_idx s) = Ok (d_rows d)) /\
      (forall d, fst (phi_oos rank s) = Ok d -> rows_at (n_rows s) (n_idx s) = Ok (d_rows d) /\ d_param d = b_param s).
  Proof.
    intros H. destruct (new_same_points p rows dim level) as (s0 & E & S & _). exists s0. split; [exact E|].
    pose proof (same_points_run os s0 H S) as (S1 & S2 & S3). cbv zeta. set (s := nrun rank s0 os) in *. clearbody s.
    assert (G : forall d, fst (elements rank s) = Ok d -> rows_at (n_rows s) (n_idx s) = Ok (d_rows d) /\ d_param d = b_param s).
    { intros d Hd. destruct (elements rank s) as (r & s') eqn:El. cbn in Hd. subst r.
      apply elements_value, compute_value in El as (El & Ep & _). rewrite <- S1, <- S2. auto. }
    split; [|exact G]. intros d Hd. unfold phi in Hd. destruct (n_phi s) as [d0|] eqn:Ep.
    - cbn in Hd. injection Hd as <-. now apply S3.
    - apply G. destruct (elements rank s) as ([d1|e] & s'); exact Hd.
  Qed.

  (** A selection given with the sample is applied twice. *)
  Theorem selection_with_sample p rows idx dim level s0 : new p rows (Some idx) dim level = Ok s0 ->
    (exists i, In i idx /\ (List.length idx <= i)%nat) -> fst (phi rank s0) = Err EIndexError.
  Proof.
    unfold new, init_sample. destruct (rows_at rows idx) as [cur|e] eqn:E; [|discriminate]. intros H. injection H as <-.
    intros (i & Hi & L). unfold phi, elements, compute. cbn [n_phi b_rows b_idx].
    rewrite (rows_at_out cur idx i Hi); [reflexivity|]. now rewrite (rows_at_length _ _ _ E).
  Qed.

  (** * Cache levels *)
  Lemma level_run os s : n_level (nrun rank s os) = n_level s.
  Proof.
    unfold nrun. revert s. induction os as [|o os IH]; intros s; [reflexivity|]. cbn [fold_left]. rewrite IH.
    destruct o as [idx|rows idx|d|p| | |]; cbn [nstep]; try reflexivity.
    - unfold init_sample. now destruct (rows_at _ _).
    - unfold set_dim. now destruct (_ <? d).
    - unfold phi. destruct (n_phi s); [reflexivity|]. destruct (elements rank s) as (r & s') eqn:El.
      pose proof (elements_snd s) as S. rewrite El in S. cbn [snd] in S. subst s'.
      destruct (compute_frame s) as (_ & _ & _ & _ & _ & F & _). destruct r; exact F.
    - unfold phi_oos. rewrite elements_snd. apply compute_frame.
    - rewrite dim_feature_snd. apply compute_frame.
  Qed.
  Lemma level_none_phi os s : n_level s = 0%nat -> n_phi s = None -> n_phi (nrun rank s os) = None.
  Proof.
    intros L. unfold nrun. revert s L. induction os as [|o os IH]; intros s L H; [exact H|]. cbn [fold_left].
    assert (L' : n_level (nstep rank s o) = 0%nat) by (rewrite <- L; exact (level_run [o] s)).
    apply IH; [exact L'|].
    destruct o as [idx|rows idx|d|p| | |]; cbn [nstep]; try reflexivity.
    - unfold init_sample. now destruct (rows_at _ _).
    - unfold set_dim. destruct (_ <? d); [exact H|reflexivity].
    - exact H.
    - unfold phi. rewrite H. unfold elements. pose proof (compute_frame s) as (_ & _ & _ & _ & _ & _ & F).
      destruct (compute rank s) as ([d|e] & s'); cbn [snd] in F; [|cbn; congruence]. rewrite L. cbn. congruence.
    - unfold phi_oos. rewrite elements_snd. destruct (compute_frame s) as (_ & _ & _ & _ & _ & _ & F). congruence.
    - rewrite dim_feature_snd. destruct (compute_frame s) as (_ & _ & _ & _ & _ & _ & F). congruence.
  Qed.
  Theorem level_none p rows idx dim s0 os : new p rows idx dim 0 = Ok s0 ->
    (forall d, fst (phi rank (nrun rank s0 os)) <> Ok d) /\ (forall d, fst (phi_oos rank (nrun rank s0 os)) <> Ok d).
  Proof.
    intros E. assert (L : n_level s0 = 0%nat /\ n_phi s0 = None).
    { unfold new, init_sample in E. destruct (rows_at _ _); [|discriminate]. injection E as <-. auto. }
    destruct L as (L & H). pose proof (level_none_phi os s0 L H) as N. pose proof (level_run os s0) as L'. rewrite L in L'.
    set (s := nrun rank s0 os) in *. clearbody s.
    assert (G : forall d, fst (elements rank s) <> Ok d).
    { intros d. unfold elements. rewrite L'. destruct (compute rank s) as ([?|?] & ?); cbn; discriminate. }
    split; [|exact G]. intros d. unfold phi. rewrite N. specialize (G d). now destruct (elements rank s) as ([?|?] & ?).
  Qed.

  (** Two objects that differ by their level only. *)
  Definition same_but_level (s t : nstate) : Prop :=
    n_rows s = n_rows t /\ n_idx s = n_idx t /\ b_rows s = b_rows t /\ b_idx s = b_idx t /\ b_param s = b_param t /\
    n_dim s = n_dim t /\ n_int s = n_int t /\ n_phi s = n_phi t.
  Lemma level_irrelevant_step s t o : n_level s <> 0%nat -> n_level t <> 0%nat -> same_but_level s t ->
    same_but_level (nstep rank s o) (nstep rank t o) /\ fst (phi rank s) = fst (phi rank t) /\
    fst (phi_oos rank s) = fst (phi_oos rank t) /\ fst (dim_feature rank s) = fst (dim_feature rank t).
  Proof.
    destruct s as [r1 i1 br1 bi1 p1 d1 t1 l1 f1], t as [r2 i2 br2 bi2 p2 d2 t2 l2 f2]. unfold same_but_level. cbn.
    intros L1 L2 (<- & <- & <- & <- & <- & <- & <- & <-).
    apply Nat.eqb_neq in L1, L2.
    set (s := NState r1 i1 br1 bi1 p1 d1 t1 l1 f1). set (t := NState r1 i1 br1 bi1 p1 d1 t1 l2 f1).
    assert (C : exists r u, compute rank s = (r, u l1) /\ compute rank t = (r, u l2) /\
      (forall l l', same_but_level (u l) (u l')) /\ (forall l l', get_dim (u l) = get_dim (u l'))).
    { unfold compute, s, t. cbn. destruct (rows_at br1 bi1) as [rows|e].
      - destruct (_ <? d1).
        + eexists _, (fun l => NState r1 i1 br1 bi1 p1 d1 t1 l f1). repeat split.
        + destruct (rank p1 rows d1 <? d1).
          * eexists _, (fun l => NState r1 i1 br1 bi1 p1 _ false l f1). repeat split.
          * eexists _, (fun l => NState r1 i1 br1 bi1 p1 d1 t1 l f1). repeat split.
      - eexists _, (fun l => NState r1 i1 br1 bi1 p1 d1 t1 l f1). repeat split. }
    destruct C as (r & u & C1 & C2 & C3 & C4).
    assert (E1 : elements rank s = (r, u l1)) by (unfold elements; rewrite C1; destruct r; [unfold s; cbn; now rewrite L1|reflexivity]).
    assert (E2 : elements rank t = (r, u l2)) by (unfold elements; rewrite C2; destruct r; [unfold t; cbn; now rewrite L2|reflexivity]).
    split.
    - destruct o as [idx|rows idx|d|p| | |]; cbn [nstep].
      + unfold s, t. cbn. repeat split.
      + unfold init_sample. unfold s, t. cbn. destruct (rows_at rows _); cbn; repeat split.
      + unfold set_dim, s, t. cbn. destruct (_ <? d); cbn; repeat split.
      + unfold s, t. cbn. repeat split.
      + unfold phi. cbn [n_phi s t]. destruct f1; [cbn; repeat split|]. rewrite E1, E2. destruct r; cbn [snd]; [|apply C3].
        destruct (C3 l1 l2) as (A1 & A2 & A3 & A4 & A5 & A6 & A7 & A8). cbn. repeat split; assumption.
      + unfold phi_oos. rewrite E1, E2. apply C3.
      + rewrite !dim_feature_snd, C1, C2. apply C3.
    - split; [|split].
      + unfold phi. cbn [n_phi s t]. destruct f1; [reflexivity|]. rewrite E1, E2. now destruct r.
      + unfold phi_oos. now rewrite E1, E2.
      + unfold dim_feature. rewrite C1, C2. destruct r; cbn; [apply C4|reflexivity].
  Qed.
  Theorem level_irrelevant p rows idx dim l1 l2 os : l1 <> 0%nat -> l2 <> 0%nat ->
    match new p rows idx dim l1, new p rows idx dim l2 with
    | Ok s, Ok t =>
        let s' := nrun rank s os in let t' := nrun rank t os in
        fst (phi rank s') = fst (phi rank t') /\ fst (phi_oos rank s') = fst (phi_oos rank t') /\
        fst (dim_feature rank s') = fst (dim_feature rank t')
    | Err e, Err e' => e = e'
    | _, _ => False
    end.
  Proof.
    intros L1 L2. unfold new, init_sample. destruct (rows_at rows _) as [cur|e]; [|reflexivity]. cbv zeta. cbn [b_param n_dim n_int n_level b_rows].
    set (s := NState _ _ _ _ _ _ _ l1 _). set (t := NState _ _ _ _ _ _ _ l2 _).
    assert (G : same_but_level (nrun rank s os) (nrun rank t os)).
    { assert (A : same_but_level s t) by (repeat split). assert (B1 : n_level s <> 0%nat) by exact L1. assert (B2 : n_level t <> 0%nat) by exact L2.
      revert A B1 B2. generalize s t. unfold nrun. induction os as [|o os IH]; intros a b A B1 B2; [exact A|]. cbn [fold_left].
      apply IH; [now apply level_irrelevant_step| |]; [rewrite (level_run [o] a : n_level (nstep rank a o) = _)|rewrite (level_run [o] b : n_level (nstep rank b o) = _)]; assumption. }
    destruct (level_irrelevant_step (nrun rank s os) (nrun rank t os) NPhi) as (_ & R); [rewrite level_run; exact L1|rewrite level_run; exact L2|exact G|exact R].
  Qed.

  (** * Sub-sampling *)
  Theorem subsampling_default p rows level idx : (List.length idx < List.length rows)%nat ->
    Forall (fun i => (i < List.length rows)%nat) idx ->
    exists s0, new p rows None None level = Ok s0 /\ fst (phi rank (stochastic s0 idx)) = Err EAssertionError /\
      fst (phi_oos rank (stochastic s0 idx)) = Err EAssertionError.
  Proof.
    intros L F. unfold new, init_sample. rewrite rows_at_all. eexists. split; [reflexivity|].
    destruct (rows_at_in rows idx F) as (rs & E). pose proof (rows_at_length _ _ _ E) as Lr.
    assert (C : (Z.of_nat (List.length rs) <? Z.of_nat (List.length rows)) = true) by (apply Z.ltb_lt; lia).
    unfold phi_oos, phi, elements, compute, stochastic. cbn. rewrite E, C. auto.
  Qed.
  Theorem subsampling_small_dim p rows level idx k : level <> 0%nat ->
    k <= Z.of_nat (List.length idx) -> Forall (fun i => (i < List.length rows)%nat) idx ->
    exists s0 d, new p rows None (Some k) level = Ok s0 /\ fst (phi rank (stochastic s0 idx)) = Ok d /\
      rows_at rows idx = Ok (d_rows d) /\ d_dim d = rank p (d_rows d) k.
  Proof.
    intros Hl L F. unfold new, init_sample. rewrite rows_at_all. destruct (rows_at_in rows idx F) as (rs & E).
    pose proof (rows_at_length _ _ _ E) as Lr.
    assert (C : (Z.of_nat (List.length rs) <? k) = false) by (apply Z.ltb_ge; lia). apply Nat.eqb_neq in Hl.
    eexists _, (Decomp p rs (rank p rs k)). split; [reflexivity|].
    unfold phi, elements, compute, stochastic. cbn. rewrite E, C, Hl. cbn. auto.
  Qed.

  (** * Changes of the base kernel *)
  Theorem base_change_stale (s s1 : nstate) d p : phi rank s = (Ok d, s1) -> fst (phi rank (set_base_param s1 p)) = Ok d.
  Proof.
    unfold phi at 1. destruct (n_phi s) as [d0|] eqn:E.
    - intros H. injection H as <- <-. unfold phi, set_base_param. cbn. now rewrite E.
    - destruct (elements rank s) as ([d1|e] & s') eqn:El; [|discriminate]. intros H. injection H as <- <-. reflexivity.
  Qed.
  Theorem base_change_oos (s s1 : nstate) p d : fst (phi_oos rank (set_base_param s1 p)) = Ok d -> d_param d = p.
  Proof.
    unfold phi_oos. destruct (elements rank _) as (r & s') eqn:E. cbn. intros ->.
    apply elements_value, compute_value in E as (_ & E & _). exact E.
  Qed.
  Theorem base_change_selected (s : nstate) p idx d : fst (phi rank (stochastic (set_base_param s p) idx)) = Ok d -> d_param d = p.
  Proof.
    unfold phi. cbn [n_phi stochastic]. destruct (elements rank _) as ([d0|e] & s') eqn:E; [|discriminate].
    cbn. intros H. injection H as <-. apply elements_value, compute_value in E as (_ & E & _). exact E.
  Qed.

  (** * Dimension of the features *)
  Definition good_rank : Prop := forall p rows, (forall k, 1 <= k -> 1 <= rank p rows k <= k) /\
    (forall j k, 1 <= j <= k -> rank p rows j = Z.min j (rank p rows k)).
  Theorem dim_feature_of_phi p rows k level : good_rank -> level <> 0%nat -> 1 <= k <= Z.of_nat (List.length rows) ->
    exists s0, new p rows None (Some k) level = Ok s0 /\
    exists d s1, phi rank s0 = (Ok d, s1) /\ d_dim d = rank p rows k /\
      fst (dim_feature rank s1) = if rank p rows k <? k then Ok (d_dim d) else Err EAttributeError.
  Proof.
    intros G Hl Hk. unfold new, init_sample. rewrite rows_at_all. eexists. split; [reflexivity|].
    assert (C : (Z.of_nat (List.length rows) <? k) = false) by (apply Z.ltb_ge; lia). apply Nat.eqb_neq in Hl.
    exists (Decomp p rows (rank p rows k)). destruct (G p rows) as (G1 & G2). pose proof (G1 k ltac:(lia)) as Gk.
    destruct (rank p rows k <? k) eqn:B.
    - eexists. split; [unfold phi, elements, compute; cbn; rewrite rows_at_all, C, B, Hl; reflexivity|]. split; [reflexivity|].
      unfold dim_feature, compute. cbn. rewrite rows_at_all.
      assert (C' : (Z.of_nat (List.length rows) <? rank p rows k) = false) by (apply Z.ltb_ge; lia). rewrite C'.
      pose proof (G2 (rank p rows k) k ltac:(lia)) as I. rewrite Z.min_id in I. rewrite I, Z.ltb_irrefl. reflexivity.
    - eexists. split; [unfold phi, elements, compute; cbn; rewrite rows_at_all, C, B, Hl; reflexivity|]. split; [reflexivity|].
      unfold dim_feature, compute. cbn. rewrite rows_at_all, C, B. reflexivity.
  Qed.
  Theorem dim_feature_default p rows level : good_rank -> level <> 0%nat -> rows <> [] ->
    exists s0, new p rows None None level = Ok s0 /\
    exists d s1, phi rank s0 = (Ok d, s1) /\ d_dim d = rank p rows (Z.of_nat (List.length rows)) /\
      fst (dim_feature rank s1) = Ok (d_dim d).
  Proof.
    intros G Hl Hn. unfold new, init_sample. rewrite rows_at_all. eexists. split; [reflexivity|]. apply Nat.eqb_neq in Hl.
    set (n := Z.of_nat (List.length rows)). assert (N : 1 <= n) by (destruct rows; [now elim Hn|cbn; lia]).
    exists (Decomp p rows (rank p rows n)). destruct (G p rows) as (G1 & G2). pose proof (G1 n N) as Gk.
    destruct (rank p rows n <? n) eqn:B.
    - eexists. split; [unfold phi, elements, compute; cbn; rewrite rows_at_all; fold n; rewrite Z.ltb_irrefl, B, Hl; reflexivity|]. split; [reflexivity|].
      unfold dim_feature, compute. cbn. rewrite rows_at_all. fold n.
      assert (C' : (n <? rank p rows n) = false) by (apply Z.ltb_ge; lia). rewrite C'.
      pose proof (G2 (rank p rows n) n ltac:(lia)) as I. rewrite Z.min_id in I. rewrite I, Z.ltb_irrefl. reflexivity.
    - eexists. split; [unfold phi, elements, compute; cbn; rewrite rows_at_all; fold n; rewrite Z.ltb_irrefl, B, Hl; reflexivity|]. split; [reflexivity|].
      unfold dim_feature, compute. cbn. rewrite rows_at_all. fold n. rewrite Z.ltb_irrefl, B. cbn. f_equal. apply Z.ltb_ge in B. lia.
  Qed.
End Proofs.
