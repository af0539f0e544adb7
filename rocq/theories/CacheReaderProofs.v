(** Readings through a cache whose contents are right are right. *)
From Verif Require Import Base BaseProofs Cache CacheSpec CacheProofs CacheReader.
Open Scope Z_scope.

Section Proofs.
  Context {V : Type}.
  Implicit Types (c : cache V).

  (** [ok key p v]: [v] may be stored under [key] with persisting flag [p]. *)
  Definition holds_right (ok : string -> bool -> V -> Prop) c : Prop :=
    wf c /\ numeric (c_level c) /\ forall k e, stored c k = Some e -> ok k (e_persisting e) (e_val e).

  (** From a right cache, the call gives exactly [r] and leaves a right cache. *)
  Definition gives {A} (ok : string -> bool -> V -> Prop) (m : reader V A) (r : result A) : Prop :=
    forall c, holds_right ok c ->
      fst (m c) = r /\ holds_right ok (snd (m c)) /\ c_level (snd (m c)) = c_level c.

  Lemma gives_ret {A} ok (r : result A) : gives ok (rret r) r.
  Proof. intros c H. now cbn. Qed.

  Lemma gives_bind {A B} ok (m : reader V A) (f : A -> reader V B) r g :
    gives ok m r -> (forall a, r = Ok a -> gives ok (f a) (g a)) ->
    gives ok (rbind m f) (bind r g).
  Proof.
    intros Hm Hf c Hc. unfold rbind. destruct (Hm c Hc) as (E & Hc' & L).
    destruct (m c) as [r' c']. cbn [fst snd] in *. subst r'.
    destruct r as [a|e]; cbn [bind]; [|auto].
    destruct (Hf a eq_refl c' Hc') as (E2 & Hc2 & L2). repeat split; try assumption; try apply Hc2. congruence.
  Qed.

  (** With a looser description of the intermediate value. *)
  Definition gives_some {A} (ok : string -> bool -> V -> Prop) (m : reader V A) (P : A -> Prop) : Prop :=
    forall c, holds_right ok c ->
      (exists a, fst (m c) = Ok a /\ P a) /\ holds_right ok (snd (m c)) /\
      c_level (snd (m c)) = c_level c.
  Lemma gives_bind_some {A B} ok (m : reader V A) P (f : A -> reader V B) r :
    gives_some ok m P -> (forall a, P a -> gives ok (f a) r) -> gives ok (rbind m f) r.
  Proof.
    intros Hm Hf c Hc. unfold rbind. destruct (Hm c Hc) as ((a & E & Pa) & Hc' & L).
    destruct (m c) as [r' c']. cbn [fst snd] in *. subst r'.
    destruct (Hf a Pa c' Hc') as (E2 & Hc2 & L2). repeat split; try assumption; try apply Hc2. congruence.
  Qed.

  Lemma save_right ok c key v a : holds_right ok c -> known_name (a_default_level a) -> ok key (a_persisting a) v ->
    fst (save c key (Ok v) a) = Ok v /\ holds_right ok (snd (save c key (Ok v) a)).
  Proof.
    intros (Hwf & Hlv & He) Hd Hk. split.
    - unfold save. rewrite lvl_le_numeric; [|now apply entry_level_numeric|exact Hlv].
      destruct (_ || _); reflexivity.
    - split; [now apply save_wf|]. split; [now rewrite save_level|].
      intros k e Hs. destruct (save_stored c key (Ok v) a k e Hwf Hs) as [H|(-> & w & Ew & -> & _)]; [eauto|].
      injection Ew as <-. exact Hk.
  Qed.

  Lemma remove_right ok c k : holds_right ok c -> holds_right ok (remove_from_cache c k).
  Proof.
    intros (Hwf & Hlv & He). split; [now apply remove_from_cache_wf|]. split; [now rewrite remove_from_cache_level|].
    intros x e Hs. rewrite remove_from_cache_stored in Hs by exact Hwf. destruct (smem _ _); [discriminate|eauto].
  Qed.
  Lemma reset_right ok c p av : holds_right ok c -> holds_right ok (reset_cache c p av).
  Proof.
    intros (Hwf & Hlv & He). split; [now apply reset_cache_wf|]. split; [now rewrite reset_cache_level|].
    intros x e Hs. rewrite reset_cache_stored in Hs by exact Hwf. unfold reset_fate in Hs.
    destruct (stored c x) as [e'|] eqn:E; [|discriminate]. destruct (survives p av x e'); [|discriminate].
    injection Hs as <-. eauto.
  Qed.
  Lemma set_level_right ok c l : holds_right ok c -> known_level l -> holds_right ok (set_level c l).
  Proof.
    intros (Hwf & Hlv & He) Hl. split; [exact Hwf|]. split; [now apply get_level_numeric|exact He].
  Qed.
  Lemma clean_right ok c l : holds_right ok c -> holds_right ok (snd (clean_cache c l)).
  Proof.
    intros (Hwf & Hlv & He). split; [now apply clean_cache_wf|]. split; [now rewrite clean_cache_level|].
    intros x e Hs. apply clean_cache_sub in Hs; eauto.
  Qed.
  Lemma init_right ok l : known_level (Some l) -> holds_right ok (init_cache l).
  Proof.
    intros Hl. split; [constructor|]. split; [|discriminate].
    apply (get_level_numeric (LInt 2) (Some l)); [now exists 2|exact Hl].
  Qed.
  Lemma right_mono (ok ok' : string -> bool -> V -> Prop) c :
    (forall k p v, ok k p v -> ok' k p v) -> holds_right ok c -> holds_right ok' c.
  Proof. intros H (Hwf & Hlv & He). split; [exact Hwf|]. split; [exact Hlv|]. eauto. Qed.

  (** [_get] on a key with a determined value. *)
  Lemma gives_get ok key a f r : known_name (a_default_level a) ->
    gives ok f r -> (forall p v, ok key p v -> r = Ok v) -> (forall v, r = Ok v -> ok key (a_persisting a) v) ->
    gives ok (rget key a f) r.
  Proof.
    intros Hd Hf Hk1 Hk c Hc. unfold rget.
    destruct (if a_overwrite a then None else dget (c_entries c) key) as [e|] eqn:Ee.
    - destruct (a_overwrite a); [discriminate|]. cbn. split; [|auto].
      symmetry. eapply Hk1. destruct Hc as (_ & _ & He). eauto.
    - destruct (Hf c Hc) as (E & Hc' & L). destruct (f c) as [r' c']. cbn [fst snd] in *. subst r'.
      destruct r as [v|er]; [|auto]. assert (Hv : ok key (a_persisting a) v) by now apply Hk.
      destruct (save_right ok c' key v a Hc' Hd Hv) as (E2 & Hc2).
      pose proof (save_level c' key (Ok v) a) as L2.
      destruct (save c' key (Ok v) a) as [r2 c2]. cbn [fst snd] in *. subst r2.
      cbn [fst snd]. split; [reflexivity|]. destruct (a_destroy a).
      + split; [now apply remove_right|]. rewrite remove_from_cache_level. congruence.
      + split; [exact Hc2|congruence].
  Qed.

  (** [_get] on a key with several acceptable values. *)
  Lemma gives_some_get ok key a f (P : V -> Prop) : known_name (a_default_level a) ->
    gives_some ok f P -> (forall p v, ok key p v -> P v) -> (forall v, P v -> ok key (a_persisting a) v) ->
    gives_some ok (rget key a f) P.
  Proof.
    intros Hd Hf Hk1 Hk c Hc. unfold rget.
    destruct (if a_overwrite a then None else dget (c_entries c) key) as [e|] eqn:Ee.
    - destruct (a_overwrite a); [discriminate|]. cbn. split; [|auto].
      exists (e_val e). split; [reflexivity|]. destruct Hc as (_ & _ & He). eauto.
    - destruct (Hf c Hc) as ((v & E & Hv) & Hc' & L). destruct (f c) as [r' c']. cbn [fst snd] in *. subst r'.
      destruct (save_right ok c' key v a Hc' Hd (Hk v Hv)) as (E2 & Hc2).
      pose proof (save_level c' key (Ok v) a) as L2.
      destruct (save c' key (Ok v) a) as [r2 c2]. cbn [fst snd] in *. subst r2.
      cbn [fst snd]. split; [eauto|]. destruct (a_destroy a).
      + split; [now apply remove_right|]. rewrite remove_from_cache_level. congruence.
      + split; [exact Hc2|congruence].
  Qed.

  (** Always computed anew. *)
  Lemma gives_get_overwrite ok key a f r : known_name (a_default_level a) -> a_overwrite a = true ->
    gives ok f r -> (forall v, r = Ok v -> ok key (a_persisting a) v) ->
    gives ok (rget key a f) r.
  Proof.
    intros Hd Ho Hf Hk c Hc. unfold rget. rewrite Ho.
    destruct (Hf c Hc) as (E & Hc' & L). destruct (f c) as [r' c']. cbn [fst snd] in *. subst r'.
    destruct r as [v|er]; [|auto]. assert (Hv : ok key (a_persisting a) v) by now apply Hk.
    destruct (save_right ok c' key v a Hc' Hd Hv) as (E2 & Hc2).
    pose proof (save_level c' key (Ok v) a) as L2.
    destruct (save c' key (Ok v) a) as [r2 c2]. cbn [fst snd] in *. subst r2.
    cbn [fst snd]. split; [reflexivity|]. destruct (a_destroy a).
    + split; [now apply remove_right|]. rewrite remove_from_cache_level. congruence.
    + split; [exact Hc2|congruence].
  Qed.

  Lemma gives_poke (ok : string -> bool -> V -> Prop) key v :
    (forall p w, ok key p w -> ok key p v) -> gives ok (rpoke key v) (Ok tt).
  Proof.
    intros Hv c (Hwf & Hlv & He). unfold rpoke. destruct (dget (c_entries c) key) as [e|] eqn:E.
    - cbn. split; [reflexivity|]. split; [|reflexivity]. split; [now apply NoDup_dset|]. split; [exact Hlv|].
      intros k e' Hs. unfold stored in Hs. cbn in Hs. destruct (string_dec k key) as [->|Hne].
      + rewrite dset_get_same in Hs. injection Hs as <-. cbn. eapply Hv. eapply (He key e). exact E.
      + rewrite dset_get_other in Hs by exact Hne. eauto.
    - cbn. repeat split; auto.
  Qed.
End Proofs.
