(** Readings of a kernel with parameters show the parameters in force. *)
From Verif Require Import Base BaseProofs Cache CacheSpec CacheProofs CacheReader CacheReaderProofs ParamKernel ParamKernelSpec.
Open Scope string_scope.
Open Scope Z_scope.

Section Proofs.
  Context {T X Mx Ax O : Type}.
  Variable explicit : T -> bool.
  Variable needs_aux : bool.
  Variable feat : T -> option Ax -> X -> result Mx.
  Variable kfun : T -> X -> X -> result Mx.
  Variable gram : Mx -> Mx.
  Variable aux : T -> result Ax.
  Variable akey : string.
  Variable aargs : get_args.
  Variable pre : T -> Ax -> Mx -> result Mx.
  Variable assign : O -> T -> result unit * option bool * T.
  Variable data : nat -> X.
  Variable sample : X.

  Hypothesis akey_other : akey <> "phi" /\ akey <> "K" /\ akey <> "kernel_explicit_transform" /\
                          akey <> "kernel_implicit_transform".
  Hypothesis aargs_known : known_name (a_default_level aargs).

  Notation tfeat := (true_feat needs_aux feat aux).
  Notation tK := (ParamKernelSpec.true_K explicit needs_aux feat kfun gram aux sample).
  Notation step := (pstep explicit needs_aux feat kfun gram aux akey aargs pre assign data sample).
  Notation run := (prun explicit needs_aux feat kfun gram aux akey aargs pre assign data sample).

  Definition tree_right (base : X -> result Mx) (s : X) (v : pval Mx Ax) : Prop :=
    exists l memo oos, v = PTree l memo oos /\ numeric l /\
      (forall m, memo = Some m -> base s = Ok m) /\
      (forall x m, oget oos x = Some m -> base (data x) = Ok m).

  Inductive ok (t : T) : string -> bool -> pval Mx Ax -> Prop :=
  | ok_phi m : tfeat t sample = Ok m -> ok t "phi" false (PMat m)
  | ok_K m : tK t = Ok m -> ok t "K" false (PMat m)
  | ok_etree v : tree_right (tfeat t) sample v -> ok t "kernel_explicit_transform" false v
  | ok_itree v : tree_right (fun x => kfun t x sample) sample v -> ok t "kernel_implicit_transform" false v
  | ok_aux a : (a_overwrite aargs = false -> aux t = Ok a) -> ok t akey (a_persisting aargs) (PAux a).

  Lemma ok_inv t key p v : ok t key p v ->
    (key = "phi" /\ p = false /\ exists m, v = PMat m /\ tfeat t sample = Ok m) \/
    (key = "K" /\ p = false /\ exists m, v = PMat m /\ tK t = Ok m) \/
    (key = "kernel_explicit_transform" /\ p = false /\ tree_right (tfeat t) sample v) \/
    (key = "kernel_implicit_transform" /\ p = false /\ tree_right (fun x => kfun t x sample) sample v) \/
    (key = akey /\ p = a_persisting aargs /\ exists a, v = PAux a /\ (a_overwrite aargs = false -> aux t = Ok a)).
  Proof. destruct 1; eauto 12. Qed.

  Ltac pick H := let H1 := fresh in apply ok_inv in H;
    destruct H as [(H1 & ? & H)|[(H1 & ? & H)|[(H1 & ? & H)|[(H1 & ? & H)|(H1 & ? & H)]]]]; subst;
    try discriminate H1; try (exfalso; now apply akey_other); try (exfalso; destruct akey_other as (? & ? & ? & ?); congruence).

  Lemma key_args_known k : known_name (a_default_level (key_args k)).
  Proof. cbn. auto 6. Qed.

  (** ** Trees *)
  Lemma tree_some t key base : (key = "kernel_explicit_transform" /\ base = tfeat t) \/
      (key = "kernel_implicit_transform" /\ base = (fun x => kfun t x sample)) ->
    gives_some (ok t) (tree key) (tree_right base sample).
  Proof.
    intros Hkey. unfold tree. apply gives_some_get; [apply key_args_known| | |].
    - intros c Hc. cbn. split; [|auto]. eexists. split; [reflexivity|].
      destruct Hc as (_ & Hlv & _). eexists _, _, _. split; [reflexivity|].
      split; [destruct Hlv as [n ->]; now exists n|]. split; discriminate.
    - intros p v H. destruct Hkey as [[-> ->]|[-> ->]]; pick H; exact H.
    - intros v H. destruct Hkey as [[-> ->]|[-> ->]]; [now apply ok_etree|now apply ok_itree].
  Qed.

  Lemma tree_poke t key base v : (key = "kernel_explicit_transform" /\ base = tfeat t) \/
      (key = "kernel_implicit_transform" /\ base = (fun x => kfun t x sample)) ->
    tree_right base sample v -> gives (ok t) (rpoke key v) (Ok tt).
  Proof.
    intros Hkey Hv. apply gives_poke. intros p w H.
    destruct Hkey as [[-> ->]|[-> ->]]; pick H; [now apply ok_etree|now apply ok_itree].
  Qed.

  Lemma sample_level_numeric : numeric sample_level. Proof. now exists 1. Qed.
  Lemma oos_level_numeric : numeric oos_level. Proof. now exists 2. Qed.

  Lemma tree_sample_gives t key base m : (key = "kernel_explicit_transform" /\ base = tfeat t) \/
      (key = "kernel_implicit_transform" /\ base = (fun x => kfun t x sample)) ->
    gives (ok t) m (base sample) -> gives (ok t) (tree_sample key m) (base sample).
  Proof.
    intros Hkey Hm. unfold tree_sample. eapply gives_bind_some; [exact (tree_some t key base Hkey)|].
    intros v (l & memo & oos & -> & Hl & Hmemo & Hoos). destruct memo as [w|].
    - rewrite (Hmemo w eq_refl). apply gives_ret.
    - assert (E : base sample = bind (base sample) (fun m => Ok m)) by (destruct (base sample); reflexivity).
      rewrite E at 1. apply gives_bind with (r := base sample); [exact Hm|]. intros a Ea.
      rewrite lvl_le_numeric; [|exact sample_level_numeric|exact Hl].
      destruct (_ <=? _); [|apply gives_ret].
      change (Ok a) with (bind (Ok tt) (fun _ => Ok a)).
      apply gives_bind; [|intros; apply gives_ret].
      apply (tree_poke t key base); [exact Hkey|]. exists l, (Some a), oos. split; [reflexivity|].
      split; [exact Hl|]. split; [|exact Hoos]. intros ? [= <-]. exact Ea.
  Qed.

  Lemma tree_oos_gives t key base x m : (key = "kernel_explicit_transform" /\ base = tfeat t) \/
      (key = "kernel_implicit_transform" /\ base = (fun x => kfun t x sample)) ->
    (forall z, gives (ok t) (m z) (base z)) ->
    gives (ok t) (tree_oos data sample key x m) (base (object data sample x)).
  Proof.
    intros Hkey Hm. unfold tree_oos. eapply gives_bind_some; [exact (tree_some t key base Hkey)|].
    intros v (l & memo & oos & -> & Hl & Hmemo & Hoos). destruct x as [x|]; cbn [object]; [|apply Hm].
    destruct (oget oos x) as [w|] eqn:Ex.
    - rewrite (Hoos x w Ex). apply gives_ret.
    - assert (E : base (data x) = bind (base (data x)) (fun m => Ok m)) by (destruct (base (data x)); reflexivity).
      rewrite E at 1. apply gives_bind with (r := base (data x)); [apply Hm|]. intros a Ea.
      rewrite lvl_le_numeric; [|exact oos_level_numeric|exact Hl].
      destruct (_ <=? _); [|apply gives_ret].
      change (Ok a) with (bind (Ok tt) (fun _ => Ok a)).
      apply gives_bind; [|intros; apply gives_ret].
      apply (tree_poke t key base); [exact Hkey|]. exists l, memo, ((x, a) :: oos). split; [reflexivity|].
      split; [exact Hl|]. split; [exact Hmemo|]. intros z w. cbn. destruct (Nat.eqb_spec x z) as [->|].
      + intros [= <-]. exact Ea.
      + apply Hoos.
  Qed.

  (** ** Readings *)
  Lemma read_aux_gives t : gives (ok t) (read_aux aux akey aargs t) (aux t).
  Proof.
    unfold read_aux. intros c Hc.
    assert (G : gives (ok t) (rget akey aargs (rret (bind (aux t) (fun a => Ok (PAux a)))))
                      (bind (aux t) (fun a => Ok (PAux a)))).
    { destruct (a_overwrite aargs) eqn:Eo.
      - apply gives_get_overwrite; [exact aargs_known|exact Eo|apply gives_ret|].
        intros v Hv. destruct (aux t) as [a|] eqn:Ea; [|discriminate]. injection Hv as <-.
        apply ok_aux. congruence.
      - apply gives_get; [exact aargs_known|apply gives_ret| |].
        + intros p v H. pick H. destruct H as (a & -> & Ha). now rewrite (Ha Eo).
        + intros v Hv. destruct (aux t) as [a|] eqn:Ea; [|discriminate]. injection Hv as <-.
          apply ok_aux. now intros _. }
    revert c Hc. change (gives (ok t) (rbind (rget akey aargs (rret (bind (aux t) (fun a => Ok (PAux a)))))
      (fun v => match v with PAux a => rret (Ok a) | _ => rret (Err ETypeError) end)) (aux t)).
    assert (E : aux t = bind (bind (aux t) (fun a => Ok (PAux (Mx := Mx) a)))
                             (fun v => match v with PAux a => Ok a | _ => Err ETypeError end))
      by now destruct (aux t).
    rewrite E at 2. apply gives_bind; [exact G|]. intros v _. destruct v; apply gives_ret.
  Qed.

  Lemma compute_feat_gives t x : gives (ok t) (compute_feat needs_aux feat aux akey aargs t x) (tfeat t x).
  Proof.
    unfold compute_feat, true_feat. destruct needs_aux; [|apply gives_ret].
    apply gives_bind; [apply read_aux_gives|]. intros a _. apply gives_ret.
  Qed.

  Lemma mat_gives t key r (f : reader (pval Mx Ax) (pval Mx Ax)) lk :
    gives (ok t) f (bind r (fun m => Ok (PMat m))) ->
    (forall p v, ok t key p v -> exists m, v = PMat m /\ r = Ok m) ->
    (forall m, r = Ok m -> ok t key false (PMat m)) ->
    gives (ok t) (rbind (rget key (key_args lk) f) (fun v => rret (as_mat v))) r.
  Proof.
    intros Hf H1 H2.
    assert (E : r = bind (bind r (fun m => Ok (PMat (Ax := Ax) m))) (fun v => as_mat v)) by now destruct r.
    rewrite E. apply gives_bind; [|intros; apply gives_ret].
    apply gives_get; [apply key_args_known|exact Hf| |].
    - intros p v H. destruct (H1 p v H) as (m & -> & ->). reflexivity.
    - intros v Hv. destruct r as [m|]; [|discriminate]. injection Hv as <-. now apply H2.
  Qed.

  Lemma read_Phi_gives t : gives (ok t) (read_Phi needs_aux feat aux akey aargs sample t) (tfeat t sample).
  Proof.
    unfold read_Phi. apply mat_gives.
    - apply gives_bind; [|intros; apply gives_ret].
      apply (tree_sample_gives t _ (tfeat t)); [now left|]. apply compute_feat_gives.
    - intros p v H. pick H. exact H.
    - intros m Hm. now apply ok_phi.
  Qed.

  Lemma read_K_gives t : gives (ok t) (ParamKernel.read_K explicit needs_aux feat kfun gram aux akey aargs sample t) (tK t).
  Proof.
    unfold ParamKernel.read_K. apply mat_gives.
    - unfold ParamKernelSpec.true_K. destruct (explicit t).
      + assert (E : bind (bind (tfeat t sample) (fun m => Ok (gram m))) (fun m => Ok (PMat (Ax := Ax) m)) =
                    bind (tfeat t sample) (fun m => Ok (PMat (gram m)))) by now destruct (tfeat t sample).
        rewrite E. apply gives_bind; [apply read_Phi_gives|]. intros; apply gives_ret.
      + apply gives_bind; [|intros; apply gives_ret].
        apply (tree_sample_gives t _ (fun x => kfun t x sample)); [now right|]. apply gives_ret.
    - intros p v H. pick H. exact H.
    - intros m Hm. now apply ok_K.
  Qed.

  Lemma read_preimage_gives t m : gives (ok t) (read_preimage aux akey aargs pre t m) (bind (aux t) (fun a => pre t a m)).
  Proof. apply gives_bind; [apply read_aux_gives|]. intros; apply gives_ret. Qed.

  (** ** Histories *)
  Definition PInv (s : pstate T Mx Ax) : Prop := holds_right (ok (p_par s)) (p_cache s).
  Definition Sane (s : pstate T Mx Ax) : Prop := holds_right (fun _ _ _ => True) (p_cache s).

  Lemma new_param_inv t l : known_level (Some l) -> PInv (new_param t l).
  Proof. intros H. now apply init_right. Qed.

  Lemma reset_full_inv s ok' : Sane s -> holds_right ok' (reset_cache (p_cache s) true []).
  Proof.
    intros (Hwf & Hlv & _). split; [constructor|]. split; [|discriminate].
    exact Hlv.
  Qed.

  Lemma clean_inv s o : PInv s -> clean_assignment aux aargs assign (p_par s) o -> PInv (snd (step s (PAssign o))).
  Proof.
    unfold clean_assignment, PInv. intros Hs. cbn. destruct (assign o (p_par s)) as [[r reset] t'].
    cbn [snd p_par p_cache]. intros [-> | (p & -> & H)].
    - destruct reset as [p|]; [now apply reset_right|exact Hs].
    - destruct Hs as (Hwf & Hlv & He).
      split; [now apply reset_cache_wf|]. split; [now rewrite reset_cache_level|].
      intros k e Hk. rewrite reset_cache_stored in Hk by exact Hwf. unfold reset_fate in Hk.
      destruct (stored (p_cache s) k) as [e'|] eqn:E; [|discriminate].
      destruct (survives p [] k e') eqn:Es; [|discriminate]. injection Hk as <-.
      unfold survives in Es. cbn in Es. specialize (He _ _ E).
      assert (Hp : e_persisting e' = true /\ p = false) by (destruct (e_persisting e'), p; cbn in Es; auto; discriminate).
      destruct Hp as [Hp ->]. rewrite Hp in *.
      apply ok_inv in He. destruct He as [(? & ? & _)|[(? & ? & _)|[(? & ? & _)|[(? & ? & _)|(-> & Hpa & a & -> & Ha)]]]];
        try discriminate.
      rewrite Hpa. apply ok_aux. intros Ho. destruct H as [H|[H|[H|H]]]; try congruence.
      rewrite H. now apply Ha.
  Qed.

  Lemma reading_step s m r : PInv s -> gives (ok (p_par s)) (m (p_par s)) r ->
    exists s', reading s m = (POut r, s') /\ PInv s' /\ p_par s' = p_par s.
  Proof.
    intros Hs Hm. unfold reading. destruct (Hm _ Hs) as (E & Hc & _).
    destruct (m (p_par s) (p_cache s)) as [r' c]. cbn [fst snd] in *. subst r'.
    eexists. split; [reflexivity|]. now split.
  Qed.

  Lemma careful_run os : forall s,
    (PInv s \/ (Sane s /\ fully_reset os)) ->
    careful explicit needs_aux feat kfun gram aux akey aargs pre assign data sample s os ->
    Forall (shows_parameters explicit needs_aux feat kfun gram aux pre data sample) (fst (run s os)).
  Proof.
    induction os as [|o os IH]; intros s Hs Hc; [constructor|].
    cbn [prun]. cbn [careful] in Hc. destruct Hc as [Ho Hc].
    destruct Hs as [Hs|[Hs Hr]].
    - assert (Hgoal : shows_parameters explicit needs_aux feat kfun gram aux pre data sample
                        (p_par s, o, fst (step s o)) /\
                      (PInv (snd (step s o)) \/ (Sane (snd (step s o)) /\ fully_reset os))).
      { destruct o as [a|l|p| | |x|x|m]; cbn [pstep].
        - pose proof (clean_inv s a Hs) as Hcl. cbn [pstep] in Hcl.
          destruct (assign a (p_par s)) as [[r reset] t'] eqn:Ea. cbn [fst snd] in *. split; [exact I|].
          destruct Ho as [Ho|Ho]; [left; exact (Hcl Ho)|]. right. split; [|exact Ho].
          unfold Sane. cbn [p_cache]. assert (H0 : holds_right (fun _ _ _ => True) (p_cache s)).
          { eapply right_mono; [|exact Hs]. auto. }
          destruct reset; [now apply reset_right|exact H0].
        - cbn [fst snd]. split; [exact I|]. left. apply set_level_right; [exact Hs|exact Ho].
        - cbn [fst snd]. split; [exact I|]. left. now apply (reset_right (ok (p_par s))).
        - destruct (reading_step s _ _ Hs (read_Phi_gives (p_par s))) as (s' & E & Hs' & _).
          rewrite E. cbn. auto.
        - destruct (reading_step s _ _ Hs (read_K_gives (p_par s))) as (s' & E & Hs' & _).
          rewrite E. cbn. auto.
        - assert (G : gives (ok (p_par s)) (read_phi needs_aux feat aux akey aargs data sample (p_par s) x)
                            (tfeat (p_par s) (object data sample x))).
          { apply (tree_oos_gives (p_par s) _ (tfeat (p_par s))); [now left|]. apply compute_feat_gives. }
          destruct (reading_step s (fun t => read_phi needs_aux feat aux akey aargs data sample t x) _ Hs G) as (s' & E & Hs' & _).
          rewrite E. cbn. auto.
        - assert (G : gives (ok (p_par s)) (read_k kfun data sample (p_par s) x)
                            (kfun (p_par s) (object data sample x) sample)).
          { apply (tree_oos_gives (p_par s) _ (fun z => kfun (p_par s) z sample)); [now right|].
            intros z. apply gives_ret. }
          destruct (reading_step s (fun t => read_k kfun data sample t x) _ Hs G) as (s' & E & Hs' & _).
          rewrite E. cbn. auto.
        - destruct (reading_step s (fun t => read_preimage aux akey aargs pre t m) _ Hs (read_preimage_gives (p_par s) m))
            as (s' & E & Hs' & _).
          rewrite E. cbn. auto. }
      specialize (IH (snd (step s o)) (proj2 Hgoal) Hc).
      destruct (step s o) as [r s']. cbn [fst snd] in *. destruct (run s' os) as [rs s'']. cbn [fst].
      constructor; [exact (proj1 Hgoal)|exact IH].
    - destruct o as [| |[|]| | | | |]; cbn [fully_reset] in Hr; try contradiction.
      specialize (IH (snd (step s (PReset true)))). cbn [pstep snd] in IH.
      cbn [pstep] in *. destruct (run _ os) as [rs s'']. cbn [fst] in *.
      constructor; [exact I|]. apply IH; [|exact Hc]. left. now apply reset_full_inv.
  Qed.

  (** What is held is returned: a state in which the sample features are stored
      answers them whatever the parameters. *)
  Lemma held_Phi s e m : stored (p_cache s) "phi" = Some e -> e_val e = PMat m ->
    step s PReadPhi = (POut (Ok m), s).
  Proof.
    intros He Hm. unfold stored in He. cbn [pstep]. unfold reading, read_Phi, rbind, rget. cbn [a_overwrite key_args].
    rewrite He, Hm. cbn. destruct s; reflexivity.
  Qed.
End Proofs.
