From Coq Require Import QArith.
From Verif Require Import Base BaseProofs Cache CacheSpec CacheProofs Tree ModuleTree Sample SampleSpec SampleProofs KernelState KernelSpec.
Open Scope string_scope.
Open Scope Z_scope.

Ltac conjs := repeat match goal with |- _ /\ _ => split end.

Section Proofs.
  Context {F Dm Sg Km : Type}.
  Variable transform : list (list F) -> list (list F).
  Variable no_transform : bool.
  Variable dist : list (list F) -> list (list F) -> Dm.
  Variable heur : Dm -> Sg.
  Variable one : Sg.
  Variable kern : Sg -> Dm -> result Km.
  Variable dkey : string.
  Variable orth : nat -> nat -> list (list F).
  Hypothesis dkey_ok : dkey = "_kernel_dist_sample" \/ dkey = "_kernel_square_dist_sample".
  (** Which levels the object may have, and which assignments keep it so. *)
  Variable okl : lvl -> Prop.
  Variable lv : option lvl -> Prop.
  Hypothesis okl_num : forall l, okl l -> numeric l.
  Hypothesis okl_set : forall cur l, okl cur -> lv l -> okl (get_level cur l).
  Notation kstate := (kstate F Dm Sg Km).
  Notation safe_op := (safe_op lv).
  Notation safe_history := (safe_history transform no_transform dist heur kern lv one dkey orth).
  Notation dist_held := (dist_held dkey).
  Notation kval := (kval F Dm Km).
  Notation project := (project transform no_transform).
  Notation true_dist := (true_dist transform no_transform dist).
  Notation true_sigma := (true_sigma transform no_transform dist heur).
  Notation true_K := (true_K transform no_transform dist heur kern).
  Notation sample_tree := (@sample_tree F Dm Sg Km).
  Notation projected := (projected transform no_transform).
  Notation compute_dist := (compute_dist transform no_transform dist).
  Notation sample_dist := (sample_dist transform no_transform dist dkey).
  Notation get_sigma := (get_sigma transform no_transform dist heur one dkey).
  Notation implicit_sample := (implicit_sample transform no_transform dist heur one kern dkey).
  Notation projected_kernel := (projected_kernel transform no_transform dist heur one kern dkey).
  Notation read_K := (read_K transform no_transform dist heur one kern dkey).
  Notation read_k := (read_k transform no_transform dist heur one kern dkey).
  Notation kstep := (kstep transform no_transform dist heur one kern dkey orth).
  Notation krun := (krun transform no_transform dist heur one kern dkey orth).
  Implicit Types (s : kstate) (c : cache kval) (v : kval).

  (** An entry is right for the present state of the object. *)
  Definition good s (key : string) v : Prop :=
    match v with
    | VSTree base level memo =>
        key = "sample_transform" /\ okl level /\ current_rows s = Ok base /\
        forall p, memo = Some p -> p = project base
    | VKTree level memo =>
        key = "kernel_implicit_transform" /\ okl level /\ forall m, memo = Some m -> true_K s = Ok m
    | VDist d => key = dkey /\ true_dist s = Ok d
    | VK m => key = "K" /\ true_K s = Ok m
    end.

  Definition KInv s : Prop :=
    wf (k_cache s) /\ okl (c_level (k_cache s)) /\
    forall k e, stored (k_cache s) k = Some e -> e_persisting e = false /\ good s k (e_val e).

  (** Only the cache, the counter and perhaps a first determination of the
      bandwidth differ. *)
  Definition frame s s' : Prop :=
    ss_sample (k_obj s') = ss_sample (k_obj s) /\ ss_num (k_obj s') = ss_num (k_obj s) /\
    ss_dim (k_obj s') = ss_dim (k_obj s) /\ ss_idx (k_obj s') = ss_idx (k_obj s) /\
    ss_trainable (k_obj s') = ss_trainable (k_obj s) /\ ss_grad (k_obj s') = ss_grad (k_obj s) /\
    c_level (k_cache s') = c_level (k_cache s).

  Lemma frame_refl s : frame s s.
  Proof. repeat split. Qed.

  Lemma frame_trans s s' s'' : frame s s' -> frame s' s'' -> frame s s''.
  Proof.
    intros (A1 & A2 & A3 & A4 & A5 & A6 & A7) (B1 & B2 & B3 & B4 & B5 & B6 & B7).
    unfold frame. rewrite B1, B2, B3, B4, B5, B6, B7. repeat split; assumption.
  Qed.

  Lemma frame_rows s s' : frame s s' -> current_rows s' = current_rows s.
  Proof.
    intros (A1 & A2 & A3 & A4 & A5 & A6 & A7). unfold current_rows, empty_sample. now rewrite A1, A4.
  Qed.

  Lemma frame_dist s s' : frame s s' -> true_dist s' = true_dist s.
  Proof. intros H. unfold KernelSpec.true_dist. now rewrite (frame_rows _ _ H). Qed.

  Lemma frame_empty s s' : frame s s' -> empty_sample (k_obj s') = empty_sample (k_obj s).
  Proof. intros (A1 & _). unfold empty_sample. now rewrite A1. Qed.

  Lemma frame_sigma s s' : frame s s' -> k_sigma s' = k_sigma s -> true_sigma s' = true_sigma s.
  Proof. intros H E. unfold KernelSpec.true_sigma. now rewrite E, (frame_dist _ _ H). Qed.

  Lemma frame_K s s' : frame s s' -> true_sigma s' = true_sigma s -> true_K s' = true_K s.
  Proof. intros H E. unfold KernelSpec.true_K. now rewrite E, (frame_dist _ _ H). Qed.

  Lemma good_frame s s' key v : frame s s' -> true_K s' = true_K s -> good s key v -> good s' key v.
  Proof.
    intros H E G. destruct v; cbn in *; rewrite ?(frame_rows _ _ H), ?(frame_dist _ _ H), ?E; exact G.
  Qed.

  Lemma with_kcache_frame s c : c_level c = c_level (k_cache s) -> frame s (with_kcache s c).
  Proof. intros H. repeat split; cbn; auto. Qed.

  Lemma with_kcache_truth s c : true_K (with_kcache s c) = true_K s.
  Proof. reflexivity. Qed.

  (** Storing a right value keeps the invariant. *)
  Lemma KInv_cache s c :
    KInv s -> wf c -> c_level c = c_level (k_cache s) ->
    (forall k e, stored c k = Some e ->
       stored (k_cache s) k = Some e \/ (e_persisting e = false /\ good s k (e_val e))) ->
    KInv (with_kcache s c).
  Proof.
    intros (Hwf & Hnum & Hgood) Hwf' Hl Hc. split; [exact Hwf'|]. split.
    - unfold k_cache. cbn. rewrite Hl. exact Hnum.
    - intros k e He. unfold k_cache in He. cbn in He. destruct (Hc k e He) as [H|[H1 H2]].
      + destruct (Hgood k e H) as [H1 H2]. split; [exact H1|].
        apply (good_frame s); [apply with_kcache_frame, Hl|apply with_kcache_truth|exact H2].
      + split; [exact H1|].
        apply (good_frame s); [apply with_kcache_frame, Hl|apply with_kcache_truth|exact H2].
  Qed.

  Lemma update_val_stored c key v x :
    stored (update_val c key v) x =
    match stored c key with
    | Some e => if String.eqb key x then Some (Entry (e_level e) (e_persisting e) v) else stored c x
    | None => stored c x
    end.
  Proof.
    unfold update_val, stored. destruct (dget (c_entries c) key) as [e|] eqn:E; [|reflexivity].
    cbn. destruct (String.eqb_spec key x) as [->|Hne].
    - apply dset_get_same.
    - apply dset_get_other. congruence.
  Qed.

  Lemma update_val_wf c key v : wf c -> wf (update_val c key v).
  Proof.
    intros H. unfold update_val, wf. destruct (dget _ _); [|exact H]. cbn. now apply NoDup_dset.
  Qed.

  Lemma update_val_level c key v : c_level (update_val c key v) = c_level c.
  Proof. unfold update_val. destruct (dget _ _); reflexivity. Qed.

  Lemma KInv_update s key v :
    KInv s -> good s key v -> KInv (with_kcache s (update_val (k_cache s) key v)).
  Proof.
    intros H Hv. pose proof H as (Hwf & Hnum & Hgood). apply KInv_cache; auto.
    - now apply update_val_wf.
    - apply update_val_level.
    - intros k e He. rewrite update_val_stored in He.
      destruct (stored (k_cache s) key) as [e0|] eqn:E0; [|left; exact He].
      destruct (String.eqb_spec key k) as [->|Hne]; [|left; exact He].
      injection He as <-. right. cbn. split; [apply (Hgood _ _ E0)|exact Hv].
  Qed.

  (** ** Generic cached computation *)
  Lemma get_with_spec s key a (f : kstate -> result kval * kstate) r s' :
    KInv s -> get_with s key a f = (r, s') ->
    a_overwrite a = false -> a_persisting a = false -> known_name (a_default_level a) ->
    (stored (k_cache s) key = None ->
     forall r1 s1, f s = (r1, s1) -> KInv s1 /\ frame s s1 /\ true_K s1 = true_K s /\
       forall v, r1 = Ok v -> good s1 key v) ->
    KInv s' /\ frame s s' /\ true_K s' = true_K s /\
    (forall v, r = Ok v -> good s' key v) /\
    match stored (k_cache s) key with
    | Some e => r = Ok (e_val e) /\ s' = s
    | None => exists s1, f s = (r, s1) /\ k_sigma s' = k_sigma s1 /\ k_ndist s' = k_ndist s1 /\
        (forall k, k <> key -> String.length k <> 1%nat -> stored (k_cache s') k = stored (k_cache s1) k) /\
        (forall v, r = Ok v -> a_force a = true -> String.length key <> 1%nat -> exists e, stored (k_cache s') key = Some e)
    end.
  Proof.
    intros Hinv Hget Hov Hp Hk Hf. pose proof Hinv as (Hwf & Hnum & Hgood).
    unfold get_with in Hget. rewrite Hov in Hget.
    change (dget (c_entries (k_cache s)) key) with (stored (k_cache s) key) in Hget.
    destruct (stored (k_cache s) key) as [e|] eqn:Ek.
    - injection Hget as <- <-. split; [exact Hinv|]. split; [apply frame_refl|]. split; [reflexivity|].
      split; [|split; reflexivity]. intros v Hv. injection Hv as <-. apply (Hgood _ _ Ek).
    - destruct (f s) as [r1 s1] eqn:Ef. specialize (Hf eq_refl r1 s1 eq_refl).
      destruct Hf as (Hinv1 & Hfr & HK & Hv). pose proof Hinv1 as (Hwf1 & Hnum1 & Hgood1).
      destruct r1 as [v|e].
      2:{ injection Hget as <- <-. split; [exact Hinv1|]. split; [exact Hfr|]. split; [exact HK|].
          split; [discriminate|]. exists s1. conjs; auto. discriminate. }
      destruct (save (k_cache s1) key (Ok v) a) as [r2 c] eqn:Es.
      assert (Hr2 : r2 = Ok v).
      { pose proof (entry_level_numeric (c_level (k_cache s1)) (a_level_key a) _ Hk) as Hen.
        unfold save in Es. rewrite (lvl_le_numeric _ _ Hen (okl_num _ Hnum1)) in Es.
        destruct (_ || _); injection Es as <- _; reflexivity. }
      subst r2.
      pose proof (save_wf (k_cache s1) key (Ok v) a Hwf1) as Hwfc. rewrite Es in Hwfc. cbn in Hwfc.
      pose proof (save_level (k_cache s1) key (Ok v) a) as Hlc. rewrite Es in Hlc. cbn in Hlc.
      assert (Hst : forall k e, stored c k = Some e ->
                 stored (k_cache s1) k = Some e \/ (e_persisting e = false /\ good s1 k (e_val e))).
      { intros k e He. pose proof (save_stored (k_cache s1) key (Ok v) a k e Hwf1) as H.
        rewrite Es in H. cbn in H. destruct (H He) as [H'|(-> & val & Hval & -> & _)]; [left; exact H'|].
        right. injection Hval as <-. cbn. split; [exact Hp|apply Hv; reflexivity]. }
      assert (Hoth : forall k, k <> key -> stored c k = stored (k_cache s1) k).
      { intros k Hne. clear - Es Hne. unfold save in Es.
        destruct (lvl_le _ _) as [b|]; [|discriminate Es]. destruct (_ || _); injection Es as <-; [|reflexivity].
        unfold stored. cbn. apply dset_get_other. exact Hne. }
      assert (Hforce : a_force a = true -> exists e, stored c key = Some e).
      { intros Hfc. clear - Es Hfc. unfold save in Es.
        destruct (lvl_le _ _) as [b|]; [|discriminate Es]. rewrite Hfc, orb_true_r in Es.
        injection Es as <-. eexists. unfold stored. cbn. apply dset_get_same. }
      set (c' := if a_destroy a then remove_from_cache c (KeyStr key) else c) in *.
      assert (Hwfc' : wf c') by (subst c'; destruct (a_destroy a); [now apply remove_from_cache_wf|exact Hwfc]).
      assert (Hlc' : c_level c' = c_level (k_cache s1))
        by (subst c'; destruct (a_destroy a); [now rewrite remove_from_cache_level|exact Hlc]).
      assert (Hsub : forall k e, stored c' k = Some e -> stored c k = Some e).
      { intros k e. subst c'. destruct (a_destroy a); [|auto].
        rewrite remove_from_cache_stored by exact Hwfc. destruct (smem _ _); [discriminate|auto]. }
      assert (Hlong : forall k, String.length k <> 1%nat -> stored c' k = stored c k).
      { intros k Hlen. subst c'. destruct (a_destroy a); [|reflexivity].
        rewrite remove_from_cache_stored by exact Hwfc. cbn [key_items].
        destruct (smem k (chars key)) eqn:E; [|reflexivity].
        apply smem_In, chars_length1 in E. contradiction. }
      injection Hget as <- <-.
      assert (Hfr' : frame s1 (with_kcache s1 c')) by (apply with_kcache_frame, Hlc').
      split; [apply KInv_cache; auto|]. split; [exact (frame_trans _ _ _ Hfr Hfr')|].
      split; [rewrite with_kcache_truth; exact HK|].
      split; [intros v' Hv'; apply (good_frame s1); [exact Hfr'|apply with_kcache_truth|now apply Hv]|].
      exists s1. conjs; auto.
      + intros k Hne Hlen. change (stored c' k = stored (k_cache s1) k). rewrite Hlong by exact Hlen. now apply Hoth.
      + intros v' _ Hfc Hlen. destruct (Hforce Hfc) as [e He]. exists e.
        change (stored c' key = Some e). rewrite Hlong by exact Hlen. exact He.
  Qed.

  (** Weak version: what each read preserves and shows. *)
  Definition reads {A} s (out : result A * kstate) (truth : result A) : Prop :=
    KInv (snd out) /\ frame s (snd out) /\ true_K (snd out) = true_K s /\ fst out = truth.

  Lemma good_stree_key s v : good s "sample_transform" v -> exists b l m, v = VSTree b l m.
  Proof.
    destruct v as [b l m|l m|d|m]; cbn; intros H; [eauto| | |].
    - destruct H as [H _]. discriminate H.
    - destruct H as [H _]. destruct dkey_ok as [E|E]; rewrite E in H; discriminate H.
    - destruct H as [H _]. discriminate H.
  Qed.

  Lemma good_ktree_key s v : good s "kernel_implicit_transform" v -> exists l m, v = VKTree l m.
  Proof.
    destruct v as [b l m|l m|d|m]; cbn; intros H; [|eauto| |].
    - destruct H as [H _]. discriminate H.
    - destruct H as [H _]. destruct dkey_ok as [E|E]; rewrite E in H; discriminate H.
    - destruct H as [H _]. discriminate H.
  Qed.

  Lemma good_dist_key s v : good s dkey v -> exists d, v = VDist d.
  Proof.
    destruct v as [b l m|l m|d|m]; cbn; intros H; [| |eauto|];
      destruct H as [H _]; destruct dkey_ok as [E|E]; rewrite E in H; discriminate H.
  Qed.

  Lemma good_K_key s v : good s "K" v -> exists m, v = VK m.
  Proof.
    destruct v as [b l m|l m|d|m]; cbn; intros H; [| | |eauto].
    - destruct H as [H _]. discriminate H.
    - destruct H as [H _]. discriminate H.
    - destruct H as [H _]. destruct dkey_ok as [E|E]; rewrite E in H; discriminate H.
  Qed.

  Lemma known_normal : known_name "normal". Proof. cbn. tauto. Qed.
  Lemma known_total : known_name "total". Proof. cbn. tauto. Qed.

  Lemma numeric_get_level l : okl l -> okl (get_level (LInt 2) (Some l)).
  Proof. intros H. destruct (okl_num _ H) as [n ->]. exact H. Qed.

  Lemma sample_tree_reads s r s' : KInv s -> sample_tree s = (r, s') ->
    KInv s' /\ frame s s' /\ k_sigma s' = k_sigma s /\ k_ndist s' = k_ndist s /\
    (forall k, k <> "sample_transform" -> String.length k <> 1%nat -> stored (k_cache s') k = stored (k_cache s) k) /\
    match current_rows s with
    | Err e => r = Err e
    | Ok rows => exists l m, r = Ok (VSTree rows l m) /\ okl l /\ forall p, m = Some p -> p = project rows
    end.
  Proof.
    intros Hinv H. pose proof Hinv as (Hwf & Hnum & Hgood). unfold KernelState.sample_tree in H.
    destruct (get_with_spec _ _ _ _ _ _ Hinv H eq_refl eq_refl known_normal) as (H1 & H2 & H3 & H4 & H5).
    { intros _ r1 s1 E. destruct (current_rows s) as [rows|e] eqn:Er; injection E as <- <-;
        (split; [exact Hinv|split; [apply frame_refl|split; [reflexivity|]]]); intros v Hv; [|discriminate Hv].
      injection Hv as <-. cbn. repeat split; try assumption; [|discriminate].
      now apply numeric_get_level. }
    split; [exact H1|]. split; [exact H2|].
    destruct (stored (k_cache s) "sample_transform") as [e|] eqn:Est.
    - destruct H5 as [-> ->]. conjs; auto.
      destruct (Hgood _ _ Est) as [_ Hg]. destruct (good_stree_key _ _ Hg) as (b & l & m & E).
      rewrite E in Hg. cbn in Hg. destruct Hg as (_ & Hl & Hrows & Hm). rewrite Hrows.
      exists l, m. rewrite E. auto.
    - destruct H5 as (s1 & Hf & H6 & H7 & H8 & H9).
      destruct (current_rows s) as [rows|e]; injection Hf as <- <-.
      + conjs; auto. eexists. exists None. split; [reflexivity|]. split; [|discriminate].
        now apply numeric_get_level.
      + conjs; auto.
  Qed.

  Lemma data_level_eq : data_level = LInt 1.
  Proof. reflexivity. Qed.

  Lemma projected_reads s r s' : KInv s -> projected s = (r, s') ->
    KInv s' /\ frame s s' /\ k_sigma s' = k_sigma s /\ k_ndist s' = k_ndist s /\
    (forall k, k <> "sample_transform" -> String.length k <> 1%nat -> stored (k_cache s') k = stored (k_cache s) k) /\
    match current_rows s with
    | Err e => r = Err e
    | Ok rows => exists b, r = Ok (project rows, b)
    end.
  Proof.
    intros Hinv H. unfold KernelState.projected in H.
    destruct (sample_tree s) as [r1 s1] eqn:E1.
    destruct (sample_tree_reads _ _ _ Hinv E1) as (H1 & H2 & H3 & H4 & H5 & H6).
    destruct (current_rows s) as [rows|e] eqn:Er.
    - destruct H6 as (l & m & -> & Hl & Hm). destruct m as [p|].
      + injection H as <- <-. conjs; auto. exists true. now rewrite (Hm p eq_refl).
      + cbv zeta in H. rewrite data_level_eq in H. destruct (okl_num _ Hl) as [n ->]. cbn [lvl_le] in H.
        destruct (1 <=? n).
        * injection H as <- <-.
          assert (Hgd : good s1 "sample_transform" (VSTree rows (LInt n) (Some (project rows)))).
          { cbn. repeat split; [exact Hl|rewrite (frame_rows _ _ H2); exact Er|congruence]. }
          split; [now apply KInv_update|].
          split; [apply (frame_trans _ _ _ H2), with_kcache_frame, update_val_level|].
          conjs; auto; [|now exists true].
          intros k Hne Hlen. rewrite <- (H5 k Hne Hlen).
          change (stored (update_val (k_cache s1) "sample_transform" (VSTree rows (LInt n) (Some (project rows)))) k
                  = stored (k_cache s1) k).
          rewrite update_val_stored. destruct (stored (k_cache s1) "sample_transform"); [|reflexivity].
          destruct (String.eqb_spec "sample_transform" k); [congruence|reflexivity].
        * injection H as <- <-. conjs; auto. eexists; reflexivity.
    - subst r1. injection H as <- <-. conjs; auto.
  Qed.

  Lemma compute_dist_reads s r s' : KInv s -> compute_dist s = (r, s') ->
    KInv s' /\ frame s s' /\ k_sigma s' = k_sigma s /\ r = true_dist s.
  Proof.
    intros Hinv H. unfold KernelState.compute_dist in H.
    destruct (projected s) as [r1 s1] eqn:E1.
    destruct (projected_reads _ _ _ Hinv E1) as (H1 & H2 & H3 & _ & _ & H4).
    unfold KernelSpec.true_dist. destruct (current_rows s) as [rows|e] eqn:Er.
    - destruct H4 as [b ->]. destruct (projected s1) as [r2 s2] eqn:E2.
      destruct (projected_reads _ _ _ H1 E2) as (I1 & I2 & I3 & _ & _ & I4).
      rewrite (frame_rows _ _ H2), Er in I4. destruct I4 as [b' ->]. injection H as <- <-. cbn [bind].
      split; [|split; [|split]]; cbn.
      + destruct I1 as (J1 & J2 & J3). split; [exact J1|split; [exact J2|]].
        intros k e He. destruct (J3 k e He) as [J4 J5]. split; [exact J4|].
        apply (good_frame s2); [repeat split|reflexivity|exact J5].
      + pose proof (frame_trans _ _ _ H2 I2) as J. destruct J as (A1 & A2 & A3 & A4 & A5 & A6 & A7). repeat split; assumption.
      + congruence.
      + reflexivity.
    - subst r1. injection H as <- <-. cbn. auto.
  Qed.

  Lemma sample_dist_reads s d r s' : KInv s -> sample_dist s d = (r, s') ->
    KInv s' /\ frame s s' /\ k_sigma s' = k_sigma s /\ r = true_dist s.
  Proof.
    intros Hinv H. unfold KernelState.sample_dist in H.
    destruct (get_with s dkey (dist_args d) _) as [r1 s1] eqn:E1.
    assert (Hlen : String.length dkey <> 1%nat) by (destruct dkey_ok as [-> | ->]; cbn; discriminate).
    destruct (get_with_spec _ _ _ _ _ _ Hinv E1 eq_refl eq_refl known_total) as (H1 & H2 & H3 & H4 & H5).
    { intros _ r2 s2 E2. destruct (compute_dist s) as [r3 s3] eqn:E3.
      destruct (compute_dist_reads _ _ _ Hinv E3) as (I1 & I2 & I3 & I4).
      assert (Hs : s2 = s3) by (destruct r3; injection E2 as <- <-; reflexivity). subst s2.
      split; [exact I1|]. split; [exact I2|].
      split; [apply frame_K; [exact I2|now apply frame_sigma]|].
      intros v Hv. destruct r3 as [x|x]; injection E2 as <-; [|discriminate Hv]. injection Hv as <-.
      cbn. split; [reflexivity|]. rewrite (frame_dist _ _ I2). now symmetry. }
    destruct (stored (k_cache s) dkey) as [e|] eqn:Est.
    - destruct H5 as [-> ->]. pose proof Hinv as (_ & _ & Hgood). destruct (Hgood _ _ Est) as [_ Hg].
      destruct (good_dist_key _ _ Hg) as [x Ex]. rewrite Ex in *. injection H as <- <-.
      conjs; auto. cbn in Hg. symmetry. apply Hg.
    - destruct H5 as (s2 & Hf & H6 & _). destruct (compute_dist s) as [r3 s3] eqn:E3.
      destruct (compute_dist_reads _ _ _ Hinv E3) as (I1 & I2 & I3 & I4).
      destruct r3 as [x|x]; injection Hf as <- <-; injection H as <- <-; (conjs; auto; try congruence).
  Qed.

  Lemma dkey_spared : smem dkey spared_elements = true.
  Proof. destruct dkey_ok as [-> | ->]; reflexivity. Qed.

  Lemma set_sigma_inv s x : KInv s ->
    KInv (snd (set_sigma one s x)) /\ frame s (snd (set_sigma one s x)).
  Proof.
    intros (Hwf & Hnum & Hgood).
    assert (Hfr : frame s (snd (set_sigma one s x))).
    { destruct x; repeat split; apply (reset_cache_level (k_cache s) false spared_elements). }
    split; [|exact Hfr].
    assert (Hc : k_cache (snd (set_sigma one s x)) = reset_cache (k_cache s) false spared_elements)
      by (destruct x; reflexivity).
    split; [rewrite Hc; now apply reset_cache_wf|].
    split; [rewrite Hc, reset_cache_level; exact Hnum|].
    intros k e He. rewrite Hc, reset_cache_stored in He by exact Hwf.
    unfold reset_fate, survives in He. destruct (stored (k_cache s) k) as [e0|] eqn:E0; [|discriminate He].
    destruct (Hgood _ _ E0) as [Hp Hg]. rewrite Hp in He. cbn [andb] in He. rewrite orb_false_r in He.
    destruct (smem k spared_elements) eqn:Es; [|discriminate He]. injection He as <-.
    split; [exact Hp|]. destruct (e_val e0) as [b l m|l m|d|m] eqn:Ev; cbn in Hg |- *.
    - rewrite (frame_rows _ _ Hfr). exact Hg.
    - destruct Hg as [-> _]. discriminate Es.
    - rewrite (frame_dist _ _ Hfr). exact Hg.
    - destruct Hg as [-> _]. discriminate Es.
  Qed.

  Lemma true_sigma_empty s : empty_sample (k_obj s) = true -> true_dist s = Err ENotInitialized.
  Proof. intros H. unfold KernelSpec.true_dist, current_rows. now rewrite H. Qed.

  Lemma get_sigma_reads s r s' : KInv s -> get_sigma s = (r, s') ->
    KInv s' /\ frame s s' /\ true_sigma s' = true_sigma s /\ r = true_sigma s /\
    (forall x, r = Ok x -> k_sigma s' = Some x).
  Proof.
    intros Hinv H. unfold KernelState.get_sigma in H. unfold KernelSpec.true_sigma at 2 3.
    destruct (k_sigma s) as [x|] eqn:Es.
    - injection H as <- <-. split; [exact Hinv|]. split; [apply frame_refl|].
      unfold KernelSpec.true_sigma. rewrite Es. conjs; auto; congruence.
    - destruct (empty_sample (k_obj s)) eqn:Ee.
      + injection H as <- <-. split; [exact Hinv|]. split; [apply frame_refl|].
        unfold KernelSpec.true_sigma. rewrite Es, (true_sigma_empty _ Ee). cbn.
        conjs; auto; discriminate.
      + destruct (sample_dist s false) as [r1 s1] eqn:E1.
        destruct (sample_dist_reads _ _ _ _ Hinv E1) as (H1 & H2 & H3 & H4).
        destruct r1 as [d|e]; injection H as <- <-.
        * destruct (set_sigma_inv s1 (Some (heur d)) H1) as [I1 I2].
          split; [exact I1|]. split; [exact (frame_trans _ _ _ H2 I2)|].
          rewrite <- H4. cbn [bind]. unfold KernelSpec.true_sigma. cbn. conjs; auto.
          intros x Hx. injection Hx as <-. reflexivity.
        * split; [exact H1|]. split; [exact H2|]. rewrite <- H4. cbn.
          rewrite (frame_sigma s s1 H2) by exact H3.
          unfold KernelSpec.true_sigma. rewrite Es, <- H4. cbn. conjs; auto; discriminate.
  Qed.

  Lemma implicit_sample_reads s r s' : KInv s -> implicit_sample s = (r, s') ->
    KInv s' /\ frame s s' /\ true_K s' = true_K s /\ r = true_K s.
  Proof.
    intros Hinv H. unfold KernelState.implicit_sample in H.
    destruct (projected s) as [r1 s1] eqn:E1.
    destruct (projected_reads _ _ _ Hinv E1) as (H1 & H2 & H3 & _ & _ & H4).
    assert (HK1 : true_K s1 = true_K s) by (apply frame_K; [exact H2|now apply frame_sigma]).
    destruct (current_rows s) as [rows|e] eqn:Er.
    2:{ subst r1. injection H as <- <-. split; [exact H1|]. split; [exact H2|]. split; [exact HK1|].
        unfold KernelSpec.true_K, KernelSpec.true_dist. now rewrite Er. }
    destruct H4 as [b ->]. destruct (projected s1) as [r2 s2] eqn:E2.
    destruct (projected_reads _ _ _ H1 E2) as (I1 & I2 & I3 & _ & _ & I4).
    rewrite (frame_rows _ _ H2), Er in I4. destruct I4 as [same ->].
    pose proof (frame_trans _ _ _ H2 I2) as Hfr2.
    assert (HS2 : true_sigma s2 = true_sigma s) by (apply frame_sigma; [exact Hfr2|congruence]).
    assert (HD : true_dist s = Ok (dist (project rows) (project rows)))
      by (unfold KernelSpec.true_dist; now rewrite Er).
    destruct (get_sigma s2) as [r3 s3] eqn:E3.
    destruct (get_sigma_reads _ _ _ I1 E3) as (J1 & J2 & J3 & J4 & J5).
    pose proof (frame_trans _ _ _ Hfr2 J2) as Hfr3.
    assert (HS3 : true_sigma s3 = true_sigma s) by congruence.
    assert (HK3 : true_K s3 = true_K s) by (now apply frame_K).
    rewrite HS2 in J4.
    destruct r3 as [sg|e].
    2:{ injection H as <- <-. split; [exact J1|]. split; [exact Hfr3|]. split; [exact HK3|].
        unfold KernelSpec.true_K. rewrite HD, <- J4. reflexivity. }
    destruct same.
    - destruct (sample_dist s3 true) as [r4 s4] eqn:E4.
      destruct (sample_dist_reads _ _ _ _ J1 E4) as (L1 & L2 & L3 & L4).
      rewrite (frame_dist _ _ Hfr3), HD in L4. subst r4. injection H as <- <-.
      split; [exact L1|]. split; [exact (frame_trans _ _ _ Hfr3 L2)|].
      split; [rewrite <- HK3; apply frame_K; [exact L2|now apply frame_sigma]|].
      unfold KernelSpec.true_K. rewrite HD, <- J4. reflexivity.
    - injection H as <- <-.
      assert (Hx : frame s3 (KState (k_obj s3) (k_sigma s3) (S (k_ndist s3)))) by (repeat split).
      split; [|split; [exact (frame_trans _ _ _ Hfr3 Hx)|split; [exact HK3|]]].
      + destruct J1 as (M1 & M2 & M3). split; [exact M1|split; [exact M2|]].
        intros k e He. destruct (M3 k e He) as [M4 M5]. split; [exact M4|].
        apply (good_frame s3); [exact Hx|reflexivity|exact M5].
      + unfold KernelSpec.true_K. rewrite HD, <- J4. reflexivity.
  Qed.

  Lemma kernel_tree_reads s r s' : KInv s -> kernel_tree s = (r, s') ->
    KInv s' /\ frame s s' /\ true_K s' = true_K s /\
    exists l m, r = Ok (VKTree l m) /\ okl l /\ forall x, m = Some x -> true_K s = Ok x.
  Proof.
    intros Hinv H. pose proof Hinv as (Hwf & Hnum & Hgood). unfold kernel_tree in H.
    assert (Hg0 : good s "kernel_implicit_transform" (VKTree (get_level (LInt 2) (Some (c_level (k_cache s)))) None)).
    { cbn. repeat split; [now apply numeric_get_level|discriminate]. }
    destruct (get_with_spec _ _ _ _ _ _ Hinv H eq_refl eq_refl known_normal) as (H1 & H2 & H3 & H4 & H5).
    { intros _ r1 s1 E. injection E as <- <-. split; [exact Hinv|]. split; [apply frame_refl|].
      split; [reflexivity|]. intros v Hv. injection Hv as <-. exact Hg0. }
    split; [exact H1|]. split; [exact H2|]. split; [exact H3|].
    destruct (stored (k_cache s) "kernel_implicit_transform") as [e|] eqn:Est.
    - destruct H5 as [-> ->]. destruct (Hgood _ _ Est) as [_ Hg].
      destruct (good_ktree_key _ _ Hg) as (l & m & E). rewrite E in *. cbn in Hg.
      exists l, m. repeat split; apply Hg.
    - destruct H5 as (s1 & Hf & _). injection Hf as <- <-. eexists. exists None.
      split; [reflexivity|]. split; [now apply numeric_get_level|discriminate].
  Qed.

  Lemma projected_kernel_reads s r s' : KInv s -> projected_kernel s = (r, s') ->
    KInv s' /\ frame s s' /\ true_K s' = true_K s /\ r = true_K s.
  Proof.
    intros Hinv H. unfold KernelState.projected_kernel in H.
    destruct (kernel_tree s) as [r1 s1] eqn:E1.
    destruct (kernel_tree_reads _ _ _ Hinv E1) as (H1 & H2 & H3 & l & m & -> & Hl & Hm).
    destruct m as [m|].
    - injection H as <- <-. conjs; auto. symmetry. now apply Hm.
    - destruct (implicit_sample s1) as [r2 s2] eqn:E2.
      destruct (implicit_sample_reads _ _ _ H1 E2) as (I1 & I2 & I3 & I4).
      pose proof (frame_trans _ _ _ H2 I2) as Hfr.
      assert (HK : true_K s2 = true_K s) by congruence. rewrite H3 in I4.
      destruct r2 as [x|e].
      + destruct (okl_num _ Hl) as [n ->]. rewrite data_level_eq in H. cbn [lvl_le] in H. destruct (1 <=? n).
        * injection H as <- <-. split.
          { apply KInv_update; [exact I1|]. cbn. repeat split; [exact Hl|].
            intros y Hy. injection Hy as <-. congruence. }
          split; [apply (frame_trans _ _ _ Hfr), with_kcache_frame, update_val_level|].
          split; [rewrite with_kcache_truth; exact HK|exact I4].
        * injection H as <- <-. auto.
      + injection H as <- <-. auto.
  Qed.

  Lemma true_K_empty s : empty_sample (k_obj s) = true -> true_K s = Err ENotInitialized.
  Proof. intros H. unfold KernelSpec.true_K. now rewrite (true_sigma_empty _ H). Qed.

  Lemma read_K_reads s r s' : KInv s -> read_K s = (r, s') ->
    KInv s' /\ frame s s' /\ true_K s' = true_K s /\ r = true_K s.
  Proof.
    intros Hinv H. unfold KernelState.read_K in H.
    destruct (get_with s "K" _ _) as [r1 s1] eqn:E1.
    destruct (get_with_spec _ _ _ _ _ _ Hinv E1 eq_refl eq_refl known_normal) as (H1 & H2 & H3 & H4 & H5).
    { intros _ r2 s2 E2. destruct (empty_sample (k_obj s)) eqn:Ee.
      - injection E2 as <- <-. split; [exact Hinv|]. split; [apply frame_refl|]. split; [reflexivity|discriminate].
      - destruct (projected_kernel s) as [r3 s3] eqn:E3.
        destruct (projected_kernel_reads _ _ _ Hinv E3) as (I1 & I2 & I3 & I4).
        assert (Hs : s2 = s3) by (destruct r3; injection E2 as <- <-; reflexivity). subst s2.
        conjs; auto. intros v Hv.
        destruct r3 as [x|x]; injection E2 as <-; [|discriminate Hv]. injection Hv as <-. cbn.
        split; [reflexivity|congruence]. }
    destruct (stored (k_cache s) "K") as [e|] eqn:Est.
    - destruct H5 as [-> ->]. pose proof Hinv as (_ & _ & Hgood). destruct (Hgood _ _ Est) as [_ Hg].
      destruct (good_K_key _ _ Hg) as [x Ex]. rewrite Ex in *. injection H as <- <-.
      conjs; auto. symmetry. apply Hg.
    - destruct H5 as (s2 & Hf & _). destruct (empty_sample (k_obj s)) eqn:Ee.
      + injection Hf as <- <-. injection H as <- <-. conjs; auto.
        now rewrite true_K_empty.
      + destruct (projected_kernel s) as [r3 s3] eqn:E3.
        destruct (projected_kernel_reads _ _ _ Hinv E3) as (I1 & I2 & I3 & I4).
        destruct r3 as [x|x]; injection Hf as <- <-; injection H as <- <-;
          (split; [exact H1|]; split; [exact H2|]; split; [exact H3|exact I4]).
  Qed.

  Lemma read_k_reads s r s' : KInv s -> read_k s = (r, s') ->
    KInv s' /\ frame s s' /\ true_K s' = true_K s /\ r = true_K s.
  Proof.
    intros Hinv H. unfold KernelState.read_k in H.
    destruct (kernel_tree s) as [r1 s1] eqn:E1.
    destruct (kernel_tree_reads _ _ _ Hinv E1) as (H1 & H2 & H3 & l & m & -> & Hl & Hm).
    destruct (implicit_sample_reads _ _ _ H1 H) as (I1 & I2 & I3 & I4).
    split; [exact I1|]. split; [exact (frame_trans _ _ _ H2 I2)|]. split; congruence.
  Qed.

  (** ** Sample operations *)
  (** Emptying of everything (all entries are non-persisting). *)
  Lemma KInv_emptied (o : sstate F kval) sg n c :
    ss_cache o = reset_cache c false [] -> wf c -> okl (c_level c) ->
    (forall k e, stored c k = Some e -> e_persisting e = false) ->
    KInv (KState o sg n).
  Proof.
    intros Hc Hwf Hnum Hp. unfold KInv, k_cache. cbn. rewrite Hc.
    split; [now apply reset_cache_wf|]. split; [rewrite reset_cache_level; exact Hnum|].
    intros k e He. rewrite reset_cache_stored in He by exact Hwf. unfold reset_fate, survives in He.
    destruct (stored c k) as [e0|] eqn:E0; [|discriminate He]. rewrite (Hp _ _ E0) in He. discriminate He.
  Qed.

  Lemma KInv_same_sample s (o : sstate F kval) :
    ss_sample o = ss_sample (k_obj s) -> ss_idx o = ss_idx (k_obj s) -> ss_cache o = k_cache s ->
    KInv s -> KInv (KState o (k_sigma s) (k_ndist s)).
  Proof.
    intros E1 E2 E3 (Hwf & Hnum & Hgood). unfold KInv, k_cache. cbn. rewrite E3.
    split; [exact Hwf|]. split; [exact Hnum|]. intros k e He. destruct (Hgood k e He) as [H1 H2].
    split; [exact H1|].
    assert (Hr : current_rows (KState o (k_sigma s) (k_ndist s)) = current_rows s)
      by (unfold current_rows, empty_sample; cbn; now rewrite E1, E2).
    destruct (e_val e); cbn in *; unfold KernelSpec.true_K, KernelSpec.true_sigma, KernelSpec.true_dist in *;
      rewrite Hr; exact H2.
  Qed.

  Lemma select_idx_inv (o : sstate F kval) sg n r :
    wf (ss_cache o) -> okl (c_level (ss_cache o)) ->
    (forall k e, stored (ss_cache o) k = Some e -> e_persisting e = false) ->
    ss_num o <> None -> KInv (KState (snd (select_idx o r)) sg n).
  Proof.
    intros Hwf Hnum Hp Hn. unfold select_idx. destruct (ss_num o) as [z|] eqn:En; [|congruence].
    destruct (selection z r); cbn [snd];
      (apply (KInv_emptied _ _ _ (ss_cache o)); [reflexivity|exact Hwf|exact Hnum|exact Hp]).
  Qed.

  Lemma KInv_parts s : KInv s ->
    wf (ss_cache (k_obj s)) /\ okl (c_level (ss_cache (k_obj s))) /\
    (forall k e, stored (ss_cache (k_obj s)) k = Some e -> e_persisting e = false).
  Proof.
    intros (Hwf & Hnum & Hgood). conjs; auto. intros k e He. apply (Hgood k e He).
  Qed.

  Lemma init_sample_inv s a r : KInv s -> KInv (with_obj s (snd (init_sample orth (k_obj s) a r))).
  Proof.
    intros Hinv. destruct (KInv_parts _ Hinv) as (Hwf & Hnum & Hp). unfold with_obj.
    assert (Hsame : KInv (KState (k_obj s) (k_sigma s) (k_ndist s))) by (apply KInv_same_sample; auto).
    destruct a as [|t rg g|t]; cbn [init_sample].
    - destruct (ss_num (k_obj s)) as [n|]; [|exact Hsame].
      destruct (ss_dim (k_obj s)) as [d|]; [|exact Hsame].
      destruct (_ || _); [exact Hsame|]. apply select_idx_inv; auto; discriminate.
    - apply select_idx_inv; auto; discriminate.
    - apply select_idx_inv; auto; discriminate.
  Qed.

  Lemma sample_op_inv s o : KInv s -> safe_op s (KSample o) ->
    KInv (with_obj s (snd (sstep orth (k_obj s) o))).
  Proof.
    intros Hinv Hsafe. destruct (KInv_parts _ Hinv) as (Hwf & Hnum & Hp).
    assert (Hsame : KInv (KState (k_obj s) (k_sigma s) (k_ndist s))) by (apply KInv_same_sample; auto).
    destruct o as [a r|d|n|v i|r|b|g]; cbn [sstep].
    - now apply init_sample_inv.
    - unfold set_dim. destruct (ss_dim (k_obj s)); [exact Hsame|].
      set (o' := SState _ _ (Some d) _ _ _ _).
      assert (H' : KInv (KState o' (k_sigma s) (k_ndist s))) by (apply KInv_same_sample; auto).
      destruct (ss_num (k_obj s)); [|exact H']. apply (init_sample_inv _ NoSample full_request H').
    - unfold set_num. destruct (ss_num (k_obj s)); [exact Hsame|].
      set (o' := SState _ (Some n) _ _ _ _ _).
      assert (H' : KInv (KState o' (k_sigma s) (k_ndist s))) by (apply KInv_same_sample; auto).
      destruct (ss_dim (k_obj s)); [|exact H']. apply (init_sample_inv _ NoSample full_request H').
    - unfold update_sample. destruct (empty_sample (k_obj s)); [exact Hsame|]. cbn zeta.
      destruct (negb _); [exact Hsame|]. destruct (write_rows _ _ _) as [t|e]; [|exact Hsame].
      cbn in Hsafe.
      assert (Hr : KInv (KState (with_cache (with_sample (k_obj s) t) (reset_cache (ss_cache (k_obj s)) false []))
                                (k_sigma s) (k_ndist s))).
      { apply (KInv_emptied _ _ _ (ss_cache (k_obj s))); auto. }
      destruct (ss_trainable (k_obj s)); [|exact Hr]. destruct (ss_grad (k_obj s)); [exact Hr|].
      destruct Hsafe; [discriminate|congruence].
    - destruct (ss_num (k_obj s)) as [n|] eqn:En.
      + apply select_idx_inv; auto. congruence.
      + unfold select_idx. rewrite En. exact Hsame.
    - apply KInv_same_sample; auto.
    - apply KInv_same_sample; auto.
  Qed.

  Lemma KInv_shrunk s c : KInv s -> wf c -> okl (c_level c) ->
    (forall k e, stored c k = Some e -> stored (k_cache s) k = Some e) -> KInv (with_kcache s c).
  Proof.
    intros (Hwf & Hnum & Hgood) Hwf' Hnum' Hsub. split; [exact Hwf'|]. split; [exact Hnum'|].
    intros k e He. destruct (Hgood k e (Hsub _ _ He)) as [H1 H2]. split; [exact H1|].
    destruct (e_val e); exact H2.
  Qed.

  Lemma kstep_inv s o : KInv s -> safe_op s o ->
    KInv (snd (kstep s o)) /\ reading_is_true transform no_transform dist heur kern (s, fst (kstep s o)).
  Proof.
    intros Hinv Hsafe. pose proof Hinv as (Hwf & Hnum & Hgood).
    destruct o as [o|v|l|p|l| | |]; cbn [KernelState.kstep].
    - pose proof (sample_op_inv s o Hinv Hsafe) as H.
      destruct (sstep orth (k_obj s) o) as [r x]. cbn in *. auto.
    - pose proof (proj1 (set_sigma_inv s v Hinv)) as H. destruct (set_sigma one s v) as [r s']. cbn in *. auto.
    - cbn. split; [|exact I]. apply KInv_shrunk; auto.
      exact (okl_set _ _ Hnum Hsafe).
    - cbn. split; [|exact I]. apply KInv_shrunk; auto.
      + now apply reset_cache_wf.
      + rewrite reset_cache_level. exact Hnum.
      + intros k e He. rewrite reset_cache_stored in He by exact Hwf. unfold reset_fate in He.
        destruct (stored (k_cache s) k) as [e0|]; [|discriminate He]. destruct (survives _ _ _ _); [exact He|discriminate He].
    - pose proof (fun k e => clean_cache_sub (k_cache s) l k e Hwf) as H1.
      pose proof (clean_cache_wf (k_cache s) l Hwf) as H2.
      pose proof (clean_cache_level (k_cache s) l) as H3.
      destruct (clean_cache (k_cache s) l) as [r c]. cbn in *. split; [|exact I].
      apply KInv_shrunk; auto. rewrite H3. exact Hnum.
    - destruct (read_K s) as [r s'] eqn:E. destruct (read_K_reads _ _ _ Hinv E) as (H1 & _ & _ & H2). cbn. auto.
    - destruct (read_k s) as [r s'] eqn:E. destruct (read_k_reads _ _ _ Hinv E) as (H1 & _ & _ & H2). cbn. auto.
    - destruct (get_sigma s) as [r s'] eqn:E. destruct (get_sigma_reads _ _ _ Hinv E) as (H1 & _ & _ & H2 & _). cbn. auto.
  Qed.

  Lemma krun_true os : forall s, KInv s -> safe_history s os ->
    Forall (reading_is_true transform no_transform dist heur kern) (fst (krun s os)) /\ KInv (snd (krun s os)).
  Proof.
    induction os as [|o os IH]; intros s Hinv Hsafe; cbn [KernelState.krun]; [split; [constructor|exact Hinv]|].
    destruct Hsafe as [Ho Hos]. destruct (kstep_inv s o Hinv Ho) as [H1 H2].
    destruct (kstep s o) as [r s'] eqn:E. cbn in H1, H2, Hos.
    destruct (IH s' H1 Hos) as [H3 H4].
    destruct (krun s' os) as [rs s''] eqn:E2. cbn in *. split; [constructor; assumption|exact H4].
  Qed.

  Lemma new_kernel_inv level a num dim tr r sg : okl (get_level (LInt 2) (Some level)) ->
    KInv (snd (@new_kernel F Dm Sg Km orth level a num dim tr r sg)).
  Proof.
    intros Hl. unfold new_kernel.
    assert (Hnum : okl (c_level (@init_cache kval level))) by exact Hl.
    assert (H0 : forall n d sg, KInv (KState (@SState F kval (Tensor 0 []) n d None tr None (init_cache level)) sg 0)).
    { intros n d sg'. split; [constructor|]. split; [exact Hnum|]. intros k e He. discriminate He. }
    assert (H1 : forall sg, KInv (KState (snd (new_sample orth level a num dim tr r)) sg 0)).
    { intros sg'. unfold new_sample. destruct a as [|t rg g|t];
        match goal with |- KInv (KState (snd (init_sample _ ?o ?x _)) _ _) =>
          exact (init_sample_inv (KState o sg' 0) x r (H0 _ _ _)) end. }
    destruct (new_sample orth level a num dim tr r) as [[u|e] o]; cbn in *; apply H1.
  Qed.

  Theorem kernel_reads_true level a num dim tr r sg os :
    okl (get_level (LInt 2) (Some level)) ->
    safe_history (snd (new_kernel orth level a num dim tr r sg)) os ->
    Forall (reading_is_true transform no_transform dist heur kern)
           (fst (krun (snd (new_kernel orth level a num dim tr r sg)) os)).
  Proof. intros Hl Hs. exact (proj1 (krun_true os _ (new_kernel_inv _ _ _ _ _ _ _ Hl) Hs)). Qed.

  (** ** C19: held distances are reused *)
  (** Repeated readings of the transformed sample give the same tensor: no
      transform, or a level at which it is memoised. *)
  Definition stable s : Prop :=
    no_transform = true \/
    ((exists n, c_level (k_cache s) = LInt n /\ 1 <= n) /\
     forall e base l memo, stored (k_cache s) "sample_transform" = Some e ->
       e_val e = VSTree base l memo -> memo <> None \/ exists m, l = LInt m /\ 1 <= m).

  Lemma dkey_long : String.length dkey <> 1%nat.
  Proof. destruct dkey_ok as [-> | ->]; cbn; discriminate. Qed.

  Lemma dkey_not_tree : dkey <> "sample_transform" /\ dkey <> "kernel_implicit_transform" /\ dkey <> "K".
  Proof. destruct dkey_ok as [-> | ->]; repeat split; discriminate. Qed.

  Lemma stable_transfer s s' : stable s -> c_level (k_cache s') = c_level (k_cache s) ->
    stored (k_cache s') "sample_transform" = stored (k_cache s) "sample_transform" -> stable s'.
  Proof. intros [H|H] E1 E2; [left; exact H|right]. rewrite E1, E2. exact H. Qed.

  Lemma sample_tree_stable s r s' base l memo : KInv s -> stable s -> sample_tree s = (r, s') ->
    r = Ok (VSTree base l memo) ->
    (no_transform = true \/ memo <> None \/ exists m, l = LInt m /\ 1 <= m) /\ stable s'.
  Proof.
    intros Hinv Hst H Hr. unfold KernelState.sample_tree, get_with in H.
    change (a_overwrite (level_args "sample_transform")) with false in H. cbv iota in H.
    change (dget (c_entries (k_cache s)) "sample_transform") with (stored (k_cache s) "sample_transform") in H.
    destruct (stored (k_cache s) "sample_transform") as [e|] eqn:E.
    - injection H as <- <-. split; [|exact Hst]. destruct Hst as [Hst|[_ Hst]]; [left; exact Hst|right].
      injection Hr as Hr. exact (Hst _ _ _ _ E Hr).
    - destruct (current_rows s) as [rows|x]; [|injection H as <- _; discriminate Hr].
      pose proof Hinv as (Hwf & Hnum & _).
      destruct (save (k_cache s) "sample_transform"
          (Ok (VSTree rows (get_level (LInt 2) (Some (c_level (k_cache s)))) None)) (level_args "sample_transform"))
        as [r2 c] eqn:Es.
      destruct r2 as [v|x]; [|injection H as <- _; discriminate Hr].
      pose proof (save_level (k_cache s) "sample_transform"
          (Ok (VSTree rows (get_level (LInt 2) (Some (c_level (k_cache s)))) None)) (level_args "sample_transform")) as Hl.
      rewrite Es in Hl. cbn [snd] in Hl.
      assert (Hv : v = VSTree rows (get_level (LInt 2) (Some (c_level (k_cache s)))) None).
      { unfold save in Es. destruct (lvl_le _ _); [|discriminate Es]. destruct (_ || _); injection Es as <- _; reflexivity. }
      injection H as <- <-. injection Hr as Hr. rewrite Hv in Hr. injection Hr as <- <- <-.
      destruct Hst as [Hst|[[n [Hn Hn1]] Hst]]; [split; left; exact Hst|].
      assert (HL : get_level (LInt 2) (Some (c_level (k_cache s))) = LInt n) by (rewrite Hn; reflexivity).
      split; [right; right; exists n; auto|]. right. split.
      { exists n. split; [|exact Hn1]. change (c_level c = LInt n). rewrite Hl. exact Hn. }
      intros e base l memo He Hb. right.
      pose proof (save_stored (k_cache s) "sample_transform"
          (Ok (VSTree rows (get_level (LInt 2) (Some (c_level (k_cache s)))) None)) (level_args "sample_transform")
          "sample_transform" e Hwf) as Hs.
      rewrite Es in Hs. destruct (Hs He) as [Hs'|(_ & val & Hval & -> & _)]; [congruence|].
      injection Hval as <-. cbn in Hb. injection Hb as <- <- <-. exists n. auto.
  Qed.

  Lemma projected_stable s p b s' : KInv s -> stable s -> projected s = (Ok (p, b), s') -> b = true /\ stable s'.
  Proof.
    intros Hinv Hst H. unfold KernelState.projected in H.
    destruct (sample_tree s) as [r1 s1] eqn:E1.
    destruct r1 as [v|e]; [|discriminate H]. destruct v as [base l memo|l memo|d|m]; try discriminate H.
    destruct (sample_tree_stable _ _ _ _ _ _ Hinv Hst E1 eq_refl) as [Hc Hst1].
    destruct (sample_tree_reads _ _ _ Hinv E1) as (H1 & _).
    destruct memo as [q|]; [injection H as <- <- <-; auto|].
    cbv zeta in H. rewrite data_level_eq in H.
    destruct l as [n|n]; cbn [lvl_le] in H; [|discriminate H].
    destruct (1 <=? n) eqn:En.
    - injection H as <- <- <-. split; [reflexivity|]. destruct Hst1 as [Hst1|[Hl Hst1]]; [left; exact Hst1|right].
      split; [destruct Hl as [k [Hk1 Hk2]]; exists k; split; [|exact Hk2];
              change (c_level (update_val (k_cache s1) "sample_transform" (VSTree base (LInt n) (Some (project base)))) = LInt k);
              rewrite update_val_level; exact Hk1|].
      intros e base' l' memo' He Hb.
      change (stored (update_val (k_cache s1) "sample_transform" (VSTree base (LInt n) (Some (project base)))) "sample_transform" = Some e) in He.
      rewrite update_val_stored in He. destruct (stored (k_cache s1) "sample_transform") as [e0|]; [|discriminate He].
      rewrite String.eqb_refl in He. injection He as <-. cbn in Hb. injection Hb as <- <- <-. left. discriminate.
    - injection H as <- <- <-. split; [|exact Hst1]. destruct Hc as [Hc|[Hc|[m [Hm Hm1]]]]; [exact Hc|congruence|].
      injection Hm as <-. apply Z.leb_gt in En. lia.
  Qed.

  Lemma sample_dist_hit s d : dist_held s -> snd (sample_dist s d) = s.
  Proof.
    intros [e He]. unfold KernelState.sample_dist, get_with.
    change (a_overwrite (dist_args d)) with false. cbv iota.
    change (dget (c_entries (k_cache s)) dkey) with (stored (k_cache s) dkey). rewrite He.
    destruct (e_val e); reflexivity.
  Qed.

  Lemma implicit_sample_nodist s x r s' : KInv s -> stable s -> dist_held s -> k_sigma s = Some x ->
    implicit_sample s = (r, s') -> k_ndist s' = k_ndist s /\ dist_held s' /\ k_sigma s' = Some x.
  Proof.
    intros Hinv Hst Hd Hx H. unfold KernelState.implicit_sample in H.
    destruct dkey_not_tree as (K1 & K2 & K3).
    assert (Hgo : forall s0, KInv s0 -> dist_held s0 -> k_sigma s0 = Some x -> forall r1 s1, projected s0 = (r1, s1) ->
              KInv s1 /\ k_ndist s1 = k_ndist s0 /\ dist_held s1 /\ k_sigma s1 = Some x).
    { intros s0 I0 D0 X0 r1 s1 E. destruct (projected_reads _ _ _ I0 E) as (A & _ & B & C & D & _).
      conjs; [exact A|exact C| |congruence]. destruct D0 as [e He]. exists e.
      rewrite D by (exact K1 || exact dkey_long). exact He. }
    destruct (projected s) as [r1 s1] eqn:E1. destruct (Hgo _ Hinv Hd Hx _ _ E1) as (I1 & N1 & D1 & X1).
    destruct r1 as [[p b]|e]; [|injection H as _ <-; auto].
    destruct (projected_stable _ _ _ _ Hinv Hst E1) as [_ Hst1].
    destruct (projected s1) as [r2 s2] eqn:E2. destruct (Hgo _ I1 D1 X1 _ _ E2) as (I2 & N2 & D2 & X2).
    destruct r2 as [[q same]|e]; [|injection H as _ <-; conjs; auto; congruence].
    destruct (projected_stable _ _ _ _ I1 Hst1 E2) as [-> Hst2].
    unfold KernelState.get_sigma in H. rewrite X2 in H.
    pose proof (sample_dist_hit s2 true D2) as Hs.
    destruct (sample_dist s2 true) as [[d|e] s4]; cbn in Hs; subst s4; injection H as _ <-; conjs; auto; congruence.
  Qed.

  Lemma read_K_nodist s x : KInv s -> stable s -> dist_held s -> k_sigma s = Some x ->
    k_ndist (snd (read_K s)) = k_ndist s /\ dist_held (snd (read_K s)).
  Proof.
    intros Hinv Hst Hd Hx. destruct dkey_not_tree as (K1 & K2 & K3).
    destruct (read_K s) as [r s'] eqn:H. cbn [snd]. unfold KernelState.read_K in H.
    destruct (get_with s "K" _ _) as [r1 s1] eqn:E1.
    assert (Hs1 : s1 = s') by (destruct r1 as [[]|]; injection H as _ <-; reflexivity). subst s1. clear H.
    assert (Hpk : forall r3 s3, projected_kernel s = (r3, s3) -> k_ndist s3 = k_ndist s /\ dist_held s3).
    { intros r3 s3 H. unfold KernelState.projected_kernel in H.
      destruct (kernel_tree s) as [r4 s4] eqn:E4.
      destruct (kernel_tree_reads _ _ _ Hinv E4) as (I4 & F4 & _ & l & m & -> & Hl & Hm).
      assert (Hs4 : k_ndist s4 = k_ndist s /\ dist_held s4 /\ stable s4 /\ k_sigma s4 = Some x).
      { unfold kernel_tree in E4. pose proof (get_with_spec _ _ _ _ _ _ Hinv E4 eq_refl eq_refl known_normal) as G.
        destruct G as (G1 & G2 & G3 & G4 & G5).
        { intros _ r5 s5 E5. injection E5 as <- <-. conjs; [exact Hinv|apply frame_refl|reflexivity|].
          intros v Hv. injection Hv as <-. cbn. conjs; [reflexivity|apply numeric_get_level, Hinv|discriminate]. }
        destruct (stored (k_cache s) "kernel_implicit_transform") as [e|].
        - destruct G5 as [_ ->]. auto.
        - destruct G5 as (s5 & E5 & X5 & N5 & S5 & _). assert (s5 = s) by congruence. subst s5. clear E5. conjs.
          + exact N5.
          + destruct Hd as [e He]. exists e. rewrite S5 by (exact K2 || exact dkey_long). exact He.
          + apply (stable_transfer s); [exact Hst|apply F4|]. apply S5; [discriminate|cbn; discriminate].
          + congruence. }
      destruct Hs4 as (N4 & D4 & T4 & X4).
      destruct m as [m|]; [injection H as _ <-; auto|].
      destruct (implicit_sample s4) as [r5 s5] eqn:E5.
      destruct (implicit_sample_nodist _ _ _ _ I4 T4 D4 X4 E5) as (N5 & D5 & X5).
      destruct r5 as [m|e]; [|injection H as _ <-; split; [congruence|exact D5]].
      destruct (lvl_le data_level l) as [[|]|e]; injection H as _ <-; (split; [cbn; congruence|]); try exact D5.
      destruct D5 as [e He]. exists e.
      change (stored (update_val (k_cache s5) "kernel_implicit_transform" (VKTree l (Some m))) dkey = Some e).
      rewrite update_val_stored. destruct (stored (k_cache s5) "kernel_implicit_transform"); [|exact He].
      destruct (String.eqb_spec "kernel_implicit_transform" dkey); [congruence|exact He]. }
    pose proof (get_with_spec _ _ _ _ _ _ Hinv E1 eq_refl eq_refl known_normal) as G.
    destruct G as (_ & _ & _ & _ & G5).
    { intros _ r2 s2 E2. destruct (empty_sample (k_obj s)) eqn:Ee.
      - injection E2 as <- <-. split; [exact Hinv|]. split; [apply frame_refl|]. split; [reflexivity|discriminate].
      - destruct (projected_kernel s) as [r3 s3] eqn:E3.
        destruct (projected_kernel_reads _ _ _ Hinv E3) as (I1 & I2 & I3 & I4).
        assert (Hs : s2 = s3) by (destruct r3; injection E2 as <- <-; reflexivity). subst s2.
        conjs; auto. intros v Hv.
        destruct r3 as [y|y]; injection E2 as <-; [|discriminate Hv]. injection Hv as <-. cbn.
        split; [reflexivity|congruence]. }
    destruct (stored (k_cache s) "K") as [e|].
    - destruct G5 as [_ ->]. auto.
    - destruct G5 as (s2 & E2 & X2 & N2 & S2 & _).
      assert (Hs2 : k_ndist s2 = k_ndist s /\ dist_held s2).
      { destruct (empty_sample (k_obj s)); [injection E2 as _ <-; auto|].
        destruct (projected_kernel s) as [r3 s3] eqn:E3.
        destruct r3; injection E2 as _ <-; exact (Hpk _ _ eq_refl). }
      destruct Hs2 as [N3 [e He]]. split; [congruence|]. exists e. rewrite S2 by (exact K3 || exact dkey_long). exact He.
  Qed.

  Lemma set_sigma_held s x : KInv s -> stable s -> dist_held s ->
    let s' := snd (set_sigma one s (Some x)) in
    KInv s' /\ stable s' /\ dist_held s' /\ k_sigma s' = Some x /\ k_ndist s' = k_ndist s /\
    stored (k_cache s') "K" = None /\
    stored (k_cache s') dkey = stored (k_cache s) dkey.
  Proof.
    intros Hinv Hst [e He] s'. pose proof Hinv as (Hwf & Hnum & Hgood).
    destruct (set_sigma_inv s (Some x) Hinv) as [I1 F1]. fold s' in I1, F1.
    assert (Hs : forall k, stored (k_cache s') k = if smem k spared_elements then stored (k_cache s) k else None).
    { intros k. change (stored (reset_cache (k_cache s) false spared_elements) k =
                        if smem k spared_elements then stored (k_cache s) k else None).
      rewrite reset_cache_stored by exact Hwf. unfold reset_fate, survives.
      destruct (stored (k_cache s) k) as [e0|] eqn:E0; [|destruct (smem _ _); reflexivity].
      rewrite (proj1 (Hgood _ _ E0)). cbn [negb andb]. rewrite orb_false_r. reflexivity. }
    conjs; auto.
    - apply (stable_transfer s); [exact Hst|apply F1|]. rewrite Hs. reflexivity.
    - exists e. rewrite Hs, dkey_spared. exact He.
    - rewrite Hs. reflexivity.
    - rewrite Hs, dkey_spared. reflexivity.
  Qed.

  (** ** C20: the bandwidth is frozen once determined *)
  Lemma get_with_sigma s key a (f : kstate -> result kval * kstate) x :
    (forall s, k_sigma s = Some x -> k_sigma (snd (f s)) = Some x) ->
    k_sigma s = Some x -> k_sigma (snd (get_with s key a f)) = Some x.
  Proof.
    intros Hf Hx. unfold get_with. destruct (if a_overwrite a then None else _); [exact Hx|].
    specialize (Hf s Hx). destruct (f s) as [[v|e] s1]; cbn in Hf; [|exact Hf].
    destruct (save _ _ _ _) as [[v'|e] c]; exact Hf.
  Qed.

  Lemma sample_tree_sigma s x : k_sigma s = Some x -> k_sigma (snd (sample_tree s)) = Some x.
  Proof. apply get_with_sigma. intros s0 H. destruct (current_rows s0); exact H. Qed.

  Lemma projected_sigma s x : k_sigma s = Some x -> k_sigma (snd (projected s)) = Some x.
  Proof.
    intros H. apply sample_tree_sigma in H. unfold KernelState.projected.
    destruct (sample_tree s) as [[[b l [m|]| | |]|e] s1]; cbn [snd] in H |- *; try exact H.
    destruct (lvl_le _ _) as [[|]|]; exact H.
  Qed.

  Lemma compute_dist_sigma s x : k_sigma s = Some x -> k_sigma (snd (compute_dist s)) = Some x.
  Proof.
    intros H. apply projected_sigma in H. unfold KernelState.compute_dist.
    destruct (projected s) as [[[p b]|e] s1]; cbn in H; [|exact H]. apply projected_sigma in H.
    destruct (projected s1) as [[[q b']|e] s2]; exact H.
  Qed.

  Lemma sample_dist_sigma s d x : k_sigma s = Some x -> k_sigma (snd (sample_dist s d)) = Some x.
  Proof.
    intros H. unfold KernelState.sample_dist.
    match goal with |- context [get_with s dkey ?a ?f] => pose proof (get_with_sigma s dkey a f x) as G;
      destruct (get_with s dkey a f) as [[[| | |]|e] s1] end; cbn in *; apply G; auto;
      intros s0 H0; pose proof (compute_dist_sigma s0 x H0) as H1; destruct (compute_dist s0) as [[|]]; exact H1.
  Qed.

  Lemma implicit_sample_sigma s x : k_sigma s = Some x -> k_sigma (snd (implicit_sample s)) = Some x.
  Proof.
    intros H. apply projected_sigma in H. unfold KernelState.implicit_sample.
    destruct (projected s) as [[[p b]|e] s1]; cbn in H; [|exact H]. apply projected_sigma in H.
    destruct (projected s1) as [[[q b']|e] s2]; cbn in H; [|exact H].
    unfold KernelState.get_sigma. rewrite H. destruct b'; [|exact H].
    apply (sample_dist_sigma _ true) in H. destruct (sample_dist s2 true) as [[|] s3]; exact H.
  Qed.

  Lemma kernel_tree_sigma s x : k_sigma s = Some x -> k_sigma (snd (@kernel_tree F Dm Sg Km s)) = Some x.
  Proof. apply get_with_sigma. intros s0 H. exact H. Qed.

  Lemma projected_kernel_sigma s x : k_sigma s = Some x -> k_sigma (snd (projected_kernel s)) = Some x.
  Proof.
    intros H. apply kernel_tree_sigma in H. unfold KernelState.projected_kernel.
    destruct (kernel_tree s) as [[[b l m|l [m|]| |]|e] s1]; cbn [snd] in H |- *; try exact H.
    apply implicit_sample_sigma in H. destruct (implicit_sample s1) as [[m|e] s2]; cbn [snd] in H |- *; [|exact H].
    destruct (lvl_le _ _) as [[|]|]; exact H.
  Qed.

  Lemma kstep_sigma s o x : ~ assigns_sigma o -> k_sigma s = Some x -> k_sigma (snd (kstep s o)) = Some x.
  Proof.
    intros Ho H. destruct o as [o|v|l|p|l| | |]; cbn [KernelState.kstep].
    - destruct (sstep orth (k_obj s) o). exact H.
    - destruct Ho. exact I.
    - exact H.
    - exact H.
    - destruct (clean_cache _ _). exact H.
    - destruct (read_K s) as [r s'] eqn:E. cbn [snd].
      unfold KernelState.read_K in E.
      match type of E with context [get_with s "K" ?a ?f] => pose proof (get_with_sigma s "K" a f x) as G;
        destruct (get_with s "K" a f) as [r1 s1] end.
      assert (s1 = s') by (destruct r1 as [[]|]; injection E as _ <-; reflexivity). subst s1. cbn in G.
      apply G; [|exact H]. intros s0 H0. destruct (empty_sample (k_obj s0)); [exact H0|].
      apply projected_kernel_sigma in H0. destruct (projected_kernel s0) as [[]]; exact H0.
    - unfold KernelState.read_k. apply kernel_tree_sigma in H.
      destruct (kernel_tree s) as [[[b l m|l m| |]|e] s1]; cbn [snd] in H |- *; try exact H.
      apply implicit_sample_sigma in H. destruct (implicit_sample s1). exact H.
    - unfold KernelState.get_sigma. rewrite H. exact H.
  Qed.

  Lemma sigma_frozen os : forall s x, Forall (fun o => ~ assigns_sigma o) os -> k_sigma s = Some x ->
    k_sigma (snd (krun s os)) = Some x.
  Proof.
    induction os as [|o os IH]; intros s x Hos H; [exact H|].
    inversion Hos as [|o' os' H1 H2]; subst. cbn [KernelState.krun].
    pose proof (kstep_sigma s o x H1 H) as H'. destruct (kstep s o) as [r s'] eqn:E. cbn in H'.
    specialize (IH s' x H2 H'). destruct (krun s' os) as [rs s'']. exact IH.
  Qed.

  Lemma untouched_sigma os : forall s, Forall needs_no_sigma os -> k_sigma s = None ->
    k_sigma (snd (krun s os)) = None.
  Proof.
    induction os as [|o os IH]; intros s Hos H; [exact H|].
    inversion Hos as [|o' os' H1 H2]; subst. cbn [KernelState.krun].
    assert (H' : k_sigma (snd (kstep s o)) = None).
    { destruct o as [o|v|l|p|l| | |]; try contradiction H1; cbn [KernelState.kstep]; try exact H.
      - destruct (sstep orth (k_obj s) o). exact H.
      - destruct (clean_cache _ _). exact H. }
    destruct (kstep s o) as [r s'] eqn:E. cbn in H'.
    specialize (IH s' H2 H'). destruct (krun s' os) as [rs s'']. exact IH.
  Qed.

  Theorem sigma_first_read level a num dim tr r os :
    okl (get_level (LInt 2) (Some level)) -> Forall needs_no_sigma os ->
    let s0 := snd (new_kernel orth level a num dim tr r None) in
    safe_history s0 os ->
    let s := snd (krun s0 os) in
    fst (get_sigma s) = bind (true_dist s) (fun d => Ok (heur d)).
  Proof.
    intros Hl Hos s0 Hs s. pose proof (proj2 (krun_true os s0 (new_kernel_inv _ _ _ _ _ _ _ Hl) Hs)) as Hinv.
    fold s in Hinv. destruct (get_sigma s) as [x s'] eqn:E.
    destruct (get_sigma_reads _ _ _ Hinv E) as (_ & _ & _ & Hx & _). cbn [fst]. rewrite Hx.
    unfold KernelSpec.true_sigma. unfold s. rewrite untouched_sigma; [reflexivity|exact Hos|].
    unfold s0, new_kernel. destruct (new_sample _ _ _ _ _ _ _) as [[|]]; reflexivity.
  Qed.

  (** ** C15: rejected updates *)
  Lemma rejected_update s values idx e : ss_trainable (k_obj s) = false \/ ss_grad (k_obj s) <> None ->
    fst (kstep s (KSample (SUpdate values idx))) = OutUnit (Err e) ->
    snd (kstep s (KSample (SUpdate values idx))) = s.
  Proof.
    intros Hg H. cbn [KernelState.kstep sstep] in *.
    destruct (update_sample (k_obj s) values idx) as [r o] eqn:E. cbn in H. injection H as ->.
    pose proof (update_sample_rejected _ _ _ _ _ E Hg) as ->. destruct s; reflexivity.
  Qed.

  Lemma set_sigma_nodist s x : KInv s -> stable s -> dist_held s ->
    let s1 := snd (kstep s (KSetSigma (Some x))) in
    stored (k_cache s1) "K" = None /\
    stored (k_cache s1) dkey = stored (k_cache s) dkey /\
    k_ndist (snd (kstep s1 KReadK)) = k_ndist s /\
    fst (kstep s1 KReadK) = OutK (true_K s1).
  Proof.
    intros Hinv Hst Hd s1. destruct (set_sigma_held s x Hinv Hst Hd) as (I1 & T1 & D1 & X1 & N1 & K1 & K2).
    change (snd (set_sigma one s (Some x))) with s1 in *.
    destruct (read_K_nodist s1 x I1 T1 D1 X1) as [N2 _].
    cbn [KernelState.kstep]. destruct (read_K s1) as [r s2] eqn:E.
    destruct (read_K_reads _ _ _ I1 E) as (_ & _ & _ & R). cbn in *. subst r. conjs; auto; congruence.
  Qed.
End Proofs.

(** ** The two uses of the level predicates *)
Lemma known_set cur l : numeric cur -> known_level l -> numeric (get_level cur l).
Proof. apply get_level_numeric. Qed.

Definition memoising (l : lvl) : Prop := exists n, l = LInt n /\ 1 <= n.

Lemma memoising_num l : memoising l -> numeric l.
Proof. intros [n [-> _]]. now exists n. Qed.

Lemma memoising_set cur l : memoising cur -> at_least_light l -> memoising (get_level cur l).
Proof.
  intros Hc Hl. destruct l as [[n|x]|]; [|cbn in Hl|exact Hc].
  - exists n. split; [reflexivity|exact Hl].
  - destruct Hl as [<-|[<-|[<-|[<-|[]]]]]; eexists; (split; [reflexivity|lia]).
Qed.

Section Final.
  Context {F Dm Sg Km : Type}.
  Variable transform : list (list F) -> list (list F).
  Variable no_transform : bool.
  Variable dist : list (list F) -> list (list F) -> Dm.
  Variable heur : Dm -> Sg.
  Variable one : Sg.
  Variable kern : Sg -> Dm -> result Km.
  Variable dkey : string.
  Variable orth : nat -> nat -> list (list F).
  Hypothesis dkey_ok : dkey = "_kernel_dist_sample" \/ dkey = "_kernel_square_dist_sample".
  Notation step := (kstep transform no_transform dist heur one kern dkey orth).
  Notation run := (krun transform no_transform dist heur one kern dkey orth).
  Notation safe lv := (safe_history transform no_transform dist heur kern lv one dkey orth).

  Lemma reads_true level a num dim tr r sg os :
    known_level (Some level) ->
    safe known_level (snd (new_kernel orth level a num dim tr r sg)) os ->
    Forall (reading_is_true transform no_transform dist heur kern)
           (fst (run (snd (new_kernel orth level a num dim tr r sg)) os)).
  Proof.
    intros Hl Hs. apply (kernel_reads_true transform no_transform dist heur one kern dkey orth dkey_ok
                           numeric known_level (fun l H => H) known_set); [|exact Hs].
    apply known_set; [now exists 2|exact Hl].
  Qed.

  Lemma first_sigma level a num dim tr r os :
    known_level (Some level) -> Forall needs_no_sigma os ->
    let s0 := snd (new_kernel orth level a num dim tr r None) in
    safe known_level s0 os ->
    let s := snd (run s0 os) in
    fst (step s KReadSigma) = OutSigma (bind (true_dist transform no_transform dist s) (fun d => Ok (heur d))).
  Proof.
    intros Hl Hos s0 Hs s.
    pose proof (sigma_first_read transform no_transform dist heur one kern dkey orth dkey_ok
                  numeric known_level (fun l H => H) known_set level a num dim tr r os) as H.
    cbv zeta in H. fold s0 in H. fold s in H. cbn [kstep].
    destruct (get_sigma transform no_transform dist heur one dkey s) as [x s'] eqn:E. cbn [fst] in *. f_equal.
    apply H; [|exact Hos|exact Hs]. apply known_set; [now exists 2|exact Hl].
  Qed.

  Lemma sigma_change_reuses level a num dim tr r sg os x :
    at_least_light (Some level) ->
    let s0 := snd (new_kernel orth level a num dim tr r sg) in
    safe at_least_light s0 os ->
    let s := snd (run s0 os) in
    dist_held dkey s ->
    let s1 := snd (step s (KSetSigma (Some x))) in
    stored (k_cache s1) "K" = None /\
    stored (k_cache s1) dkey = stored (k_cache s) dkey /\
    k_ndist (snd (step s1 KReadK)) = k_ndist s /\
    fst (step s1 KReadK) = OutK (true_K transform no_transform dist heur kern s1).
  Proof.
    intros Hl s0 Hs s Hd.
    assert (H0 : memoising (get_level (LInt 2) (Some level))).
    { apply memoising_set; [exists 2; split; [reflexivity|lia]|exact Hl]. }
    pose proof (new_kernel_inv transform no_transform dist heur kern dkey orth memoising
                  level a num dim tr r sg H0) as I0.
    pose proof (proj2 (krun_true transform no_transform dist heur one kern dkey orth dkey_ok
                  memoising at_least_light memoising_num memoising_set os s0 I0 Hs)) as Hinv.
    fold s in Hinv.
    apply (set_sigma_nodist transform no_transform dist heur one kern dkey orth dkey_ok
             memoising memoising_num); [exact Hinv| |exact Hd].
    right. destruct Hinv as (_ & Hlev & Hgood). split; [exact Hlev|].
    intros e base l memo He Hv. right. destruct (Hgood _ _ He) as [_ Hg]. rewrite Hv in Hg. cbn in Hg.
    apply Hg.
  Qed.
End Final.

(** ** The rows that are read *)

Lemma position_addresses n i p : position n i = Ok p -> 0 <= n ->
  addresses n p i /\ Z.of_nat p < n.
Proof.
  unfold position, addresses. intros H Hn.
  destruct ((0 <=? i) && (i <? n)) eqn:E1.
  - injection H as <-. apply Bool.andb_true_iff in E1. destruct E1 as [A B].
    apply Z.leb_le in A. apply Z.ltb_lt in B. rewrite Z2Nat.id by exact A. lia.
  - destruct ((- n <=? i) && (i <? 0)) eqn:E2; [|discriminate H]. injection H as <-.
    apply Bool.andb_true_iff in E2. destruct E2 as [A B]. apply Z.leb_le in A. apply Z.ltb_lt in B.
    rewrite Z2Nat.id by lia. lia.
Qed.

Lemma addresses_position n i p : addresses n p i -> Z.of_nat p < n -> position n i = Ok p.
Proof.
  unfold position, addresses. intros H Hp.
  destruct ((0 <=? i) && (i <? n)) eqn:E1.
  - apply Bool.andb_true_iff in E1. destruct E1 as [A B]. apply Z.leb_le in A. apply Z.ltb_lt in B.
    f_equal. lia.
  - destruct ((- n <=? i) && (i <? 0)) eqn:E2.
    + apply Bool.andb_true_iff in E2. destruct E2 as [A B]. apply Z.leb_le in A. apply Z.ltb_lt in B.
      f_equal. lia.
    + exfalso. apply Bool.andb_false_iff in E1, E2. rewrite !Z.leb_gt, !Z.ltb_ge in E1, E2. lia.
Qed.

Lemma select_iff {F : Type} (rows : list (list F)) idx : forall out,
  select rows idx = Ok out <->
  Forall2 (fun i x => exists p, addresses (Z.of_nat (List.length rows)) p i /\ nth_error rows p = Some x) idx out.
Proof.
  induction idx as [|i idx IH]; intros out; cbn [select].
  - split.
    + intros H. injection H as <-. constructor.
    + intros H. inversion H. reflexivity.
  - destruct (position (Z.of_nat (List.length rows)) i) as [p|e] eqn:Ep; cbn [bind].
    + destruct (position_addresses _ _ _ Ep ltac:(lia)) as [Ha Hp].
      destruct (nth_error rows p) as [x|] eqn:Ex.
      2:{ apply nth_error_None in Ex. lia. }
      destruct (select rows idx) as [r|e] eqn:Er; cbn [bind].
      * split.
        -- intros H. injection H as <-. constructor.
           ++ exists p. split; [exact Ha|]. rewrite Ex. f_equal. symmetry. now apply nth_error_nth.
           ++ now apply IH.
        -- intros H. inversion H as [|i' y idx' out' Hy Hout]; subst i' idx' out.
           destruct Hy as (q & Hq & Hy). assert (q = p).
           { assert (Hl : (q < List.length rows)%nat) by (apply nth_error_Some; congruence).
             pose proof (addresses_position _ _ _ Hq ltac:(lia)) as Hq'. congruence. }
           subst q. apply (proj2 (IH out')) in Hout. injection Hout as <-.
           rewrite (nth_error_nth _ _ [] Hy). reflexivity.
      * split; [discriminate|]. intros H. inversion H as [|i' y idx' out' Hy Hout]; subst i' idx' out.
        apply (proj2 (IH out')) in Hout. discriminate Hout.
    + split; [discriminate|]. intros H. inversion H as [|i' y idx' out' Hy Hout]; subst i' idx' out.
      destruct Hy as (q & Hq & Hy).
      assert (Hl : (q < List.length rows)%nat) by (apply nth_error_Some; congruence).
      rewrite (addresses_position _ _ _ Hq ltac:(lia)) in Ep. discriminate Ep.
Qed.

Lemma current_rows_iff {F Dm Sg Km : Type} (s : kstate F Dm Sg Km) out :
  current_rows s = Ok out <->
  nrows (ss_sample (k_obj s)) * ncols (ss_sample (k_obj s)) <> 0 /\
  exists idx, ss_idx (k_obj s) = Some idx /\
    Forall2 (fun i x => exists p, addresses (nrows (ss_sample (k_obj s))) p i /\
                                  row (ss_sample (k_obj s)) p = Some x) idx out.
Proof.
  unfold current_rows, empty_sample, no_element.
  destruct (nrows (ss_sample (k_obj s)) * ncols (ss_sample (k_obj s)) =? 0) eqn:E.
  - apply Z.eqb_eq in E. split; [discriminate|]. intros [H _]. congruence.
  - apply Z.eqb_neq in E. destruct (ss_idx (k_obj s)) as [idx|] eqn:Ei.
    + rewrite select_iff. split.
      * intros H. split; [exact E|]. exists idx. split; [reflexivity|exact H].
      * intros (_ & idx' & H1 & H2). injection H1 as <-. exact H2.
    + split; [discriminate|]. intros (_ & idx' & H1 & _). discriminate H1.
Qed.
