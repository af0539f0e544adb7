(** Proofs about the listing of the stored names. *)
From Verif Require Import Base BaseProofs Cache CacheSpec CacheProofs.
Open Scope string_scope.

Section Keys.
  Context {V : Type}.
  Implicit Types (c : cache V) (s : state V).

  Lemma step_wf s o : wf (s_cache s) -> wf (s_cache (snd (step s o))).
  Proof.
    intros Hwf. destruct o as [k a|p av|l|k|l|w]; cbn [step].
    - pose proof (get_wf (s_cache s) k (s_world s k) a Hwf) as H.
      destruct (get (s_cache s) k (s_world s k) a) as [r c'] eqn:E. exact H.
    - now apply reset_cache_wf.
    - now apply clean_cache_wf.
    - now apply remove_from_cache_wf.
    - exact Hwf.
    - exact Hwf.
  Qed.

  Lemma run_wf os : forall s, wf (s_cache s) -> wf (s_cache (snd (run s os))).
  Proof.
    induction os as [|o os IH]; intros s Hwf; cbn [run]; [exact Hwf|].
    pose proof (step_wf s o Hwf) as H. destruct (step s o) as [r s'] eqn:E. cbn in H.
    specialize (IH s' H). destruct (run s' os) as [rs s''] eqn:E2. exact IH.
  Qed.

  Lemma wf_history l (w : string -> result V) os :
    wf (s_cache (snd (run (MkState (init_cache l) w) os))).
  Proof. apply run_wf. constructor. Qed.

  Lemma private_iff k : is_private k = true <-> exists rest, k = String "_" rest.
  Proof.
    destruct k as [|a k]; cbn.
    - split; [discriminate|]. intros [rest H]. discriminate H.
    - rewrite Ascii.eqb_eq. split.
      + intros ->. now exists k.
      + intros [rest H]. now injection H as ->.
  Qed.

  Lemma keys_nodup c p : wf c -> NoDup (cache_keys c p).
  Proof. intros Hwf. apply NoDup_filter, Hwf. Qed.

  Lemma keys_in c p k :
    In k (cache_keys c p) <->
    stored c k <> None /\ (p = true \/ ~ exists rest, k = String "_" rest).
  Proof.
    unfold cache_keys, stored. rewrite filter_In.
    assert (Hin : In k (dkeys (c_entries c)) <-> dget (c_entries c) k <> None).
    { split.
      - intros H E. apply (proj1 (dget_None _ _)) in E. exact (E H).
      - intros H. destruct (dget (c_entries c) k) as [e|] eqn:E; [|congruence].
        exact (dget_Some_key _ _ _ E). }
    rewrite Hin. rewrite Bool.orb_true_iff, Bool.negb_true_iff. rewrite <- private_iff.
    destruct (is_private k); split; intros [H1 H2]; split; auto.
    - destruct H2 as [H2|H2]; [discriminate H2|now left].
    - destruct H2 as [H2|H2]; [now right|now elim H2].
  Qed.

  Lemma filter_filter {A} (f g : A -> bool) l :
    filter f (filter g l) = filter (fun x => g x && f x) l.
  Proof.
    induction l as [|x l IH]; cbn; [reflexivity|].
    destruct (g x); cbn; [destruct (f x)|]; now rewrite IH.
  Qed.

  Lemma keys_public c :
    cache_keys c false = filter (fun k => negb (is_private k)) (cache_keys c true).
  Proof.
    unfold cache_keys. rewrite filter_filter. apply filter_ext. intros k.
    destruct (is_private k); reflexivity.
  Qed.

  Lemma keep_all k (l : list string) : ~ In k l -> filter (fun x => negb (String.eqb x k)) l = l.
  Proof.
    induction l as [|y l IH]; intros H; [reflexivity|]. cbn.
    destruct (String.eqb_spec y k) as [->|Hne]; [exfalso; apply H; now left|]. cbn.
    f_equal. apply IH. intros G. apply H. now right.
  Qed.

  Lemma pop_keys {A} (d : dict A) k : NoDup (dkeys d) ->
    dkeys (dpop d k) = filter (fun x => negb (String.eqb x k)) (dkeys d).
  Proof.
    induction d as [|[x v] d IH]; intros Hnd; [reflexivity|].
    change (NoDup (x :: dkeys d)) in Hnd.
    apply NoDup_cons_iff in Hnd. destruct Hnd as [Hx Hnd].
    change (dkeys ((x, v) :: d)) with (x :: dkeys d). cbn [dpop filter].
    destruct (String.eqb_spec x k) as [->|Hne]; cbn [negb].
    - symmetry. now apply keep_all.
    - change (x :: dkeys (dpop d k) = x :: filter (fun x => negb (String.eqb x k)) (dkeys d)).
      f_equal. now apply IH.
  Qed.

  Lemma remove_entry_names c k : wf c ->
    dkeys (c_entries (remove_entry c k)) =
    filter (fun x => negb (String.eqb x k)) (dkeys (c_entries c)).
  Proof.
    intros Hwf. unfold remove_entry, dmem.
    destruct (dget (c_entries c) k) as [e|] eqn:E; cbn.
    - now apply pop_keys.
    - symmetry. apply keep_all. now apply dget_None.
  Qed.

  Lemma remove_list_names l : forall c, wf c ->
    dkeys (c_entries (fold_left remove_entry l c)) =
    filter (fun x => negb (smem x l)) (dkeys (c_entries c)).
  Proof.
    induction l as [|k l IH]; intros c Hwf; cbn [fold_left].
    - cbn. symmetry. induction (dkeys (c_entries c)) as [|y m IHm]; cbn; [reflexivity|now rewrite IHm].
    - rewrite IH by now apply remove_entry_wf. rewrite remove_entry_names by exact Hwf.
      rewrite filter_filter. apply filter_ext. intros x. unfold smem. cbn.
      now rewrite Bool.negb_orb.
  Qed.

  Lemma remove_keys c l p : wf c ->
    cache_keys (remove_from_cache c (KeyList l)) p =
    filter (fun x => negb (smem x l)) (cache_keys c p).
  Proof.
    intros Hwf. unfold cache_keys, remove_from_cache. cbn [key_items].
    rewrite remove_list_names by exact Hwf. rewrite !filter_filter. apply filter_ext.
    intros x. apply Bool.andb_comm.
  Qed.

  (** ** A read *)

  Lemma set_keys {A} (d : dict A) k v :
    dkeys (dset d k v) = if smem k (dkeys d) then dkeys d else (dkeys d ++ [k])%list.
  Proof.
    induction d as [|[x u] d IH]; [reflexivity|].
    change (dkeys ((x, u) :: d)) with (x :: dkeys d). cbn [dset].
    unfold smem. cbn [existsb]. rewrite (String.eqb_sym k x).
    destruct (String.eqb_spec x k) as [->|Hne]; [reflexivity|]. cbn [orb].
    change (dkeys ((x, u) :: dset d k v)) with (x :: dkeys (dset d k v)). rewrite IH.
    unfold smem. destruct (existsb (String.eqb k) (dkeys d)); reflexivity.
  Qed.

  Lemma smem_stored c k : smem k (dkeys (c_entries c)) =
    match stored c k with Some _ => true | None => false end.
  Proof.
    unfold stored. destruct (dget (c_entries c) k) as [e|] eqn:E.
    - unfold smem. apply existsb_exists. exists k. split; [exact (dget_Some_key _ _ _ E)|apply String.eqb_refl].
    - apply Bool.not_true_iff_false. intros H. unfold smem in H. apply existsb_exists in H.
      destruct H as (x & Hx & Hk). apply String.eqb_eq in Hk. subst x.
      apply (proj1 (dget_None _ _)) in E. exact (E Hx).
  Qed.

  Lemma all_names c : cache_keys c true = dkeys (c_entries c).
  Proof.
    unfold cache_keys. induction (dkeys (c_entries c)) as [|y m IHm]; cbn; [reflexivity|].
    rewrite Bool.orb_true_r. now rewrite IHm.
  Qed.

  Lemma read_keys c k v a : a_destroy a = false ->
    cache_keys (snd (get c k v a)) true =
    match stored c k, stored (snd (get c k v a)) k with
    | None, Some _ => (cache_keys c true ++ [k])%list
    | _, _ => cache_keys c true
    end.
  Proof.
    intros Hd. rewrite !all_names. unfold get.
    destruct (if a_overwrite a then None else dget (c_entries c) k) as [e|] eqn:E0; cbn [snd].
    - destruct (stored c k); reflexivity.
    - unfold save. destruct v as [val|er]; cbn [snd].
      2:{ destruct (stored c k); reflexivity. }
      destruct (lvl_le (entry_level (c_level c) (a_level_key a) (a_default_level a)) (c_level c)) as [b|er];
        cbn [snd].
      2:{ destruct (stored c k); reflexivity. }
      rewrite Hd. destruct (b || a_force a); cbn [snd].
      2:{ destruct (stored c k); reflexivity. }
      cbn [c_entries with_entries]. rewrite set_keys, smem_stored.
      set (w := dset _ _ _).
      assert (Hs : stored (with_entries c w) k <> None).
      { unfold stored. cbn. intros H. apply (proj1 (dget_None _ _)) in H. apply H. unfold w.
        rewrite set_keys. destruct (smem k (dkeys (c_entries c))) eqn:Em.
        - unfold smem in Em. apply existsb_exists in Em. destruct Em as (x & Hx & Hk).
          apply String.eqb_eq in Hk. now subst x.
        - apply in_or_app. right. now left. }
      destruct (stored c k); [reflexivity|].
      destruct (stored (with_entries c w) k); [reflexivity|congruence].
  Qed.

  Lemma run_snoc os : forall s o, snd (run s (os ++ [o])%list) = snd (step (snd (run s os)) o).
  Proof.
    induction os as [|x os IH]; intros s o; cbn [run app].
    - cbn [snd]. destruct (step s o) as [r s']. reflexivity.
    - destruct (step s x) as [r s'] eqn:E. specialize (IH s' o).
      destruct (run s' (os ++ [o])%list) as [rs1 s1]. destruct (run s' os) as [rs2 s2]. exact IH.
  Qed.

End Keys.
