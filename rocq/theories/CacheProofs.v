(** Proofs about [Cache.v]. *)
From Verif Require Import Base BaseProofs Cache CacheSpec.
Open Scope string_scope.
Open Scope Z_scope.

#[local] Arguments entry_level cur k default_level : simpl never.
#[local] Arguments default_cache_level : simpl never.
#[local] Arguments level_switcher s : simpl never.
#[local] Arguments remove_from_cache {V} c k : simpl never.
#[local] Arguments reset_cache {V} c reset_persisting avoided : simpl never.
#[local] Arguments clean_cache {V} c l : simpl never.

(** ** Levels *)

Lemma level_switcher_known s : known_name s <-> exists n, level_switcher s = Some n.
Proof.
  unfold known_name, level_switcher. cbn [In]. split.
  - intros [<-|[<-|[<-|[<-|[<-|[]]]]]]; eexists; reflexivity.
  - intros [n H].
    destruct (String.eqb_spec s "none") as [->|]; [tauto|].
    destruct (String.eqb_spec s "light") as [->|]; [tauto|].
    destruct (String.eqb_spec s "normal") as [->|]; [tauto|].
    destruct (String.eqb_spec s "heavy") as [->|]; [tauto|].
    destruct (String.eqb_spec s "total") as [->|]; [tauto|discriminate].
Qed.

Lemma level_switcher_unknown s : ~ known_name s -> level_switcher s = None.
Proof.
  intros H. destruct (level_switcher s) as [n|] eqn:E; [|reflexivity].
  exfalso. apply H, level_switcher_known. now exists n.
Qed.

Lemma get_level_numeric cur l : numeric cur -> known_level l -> numeric (get_level cur l).
Proof.
  intros Hc Hl. destruct l as [[n|s]|]; cbn in *; [now exists n| |exact Hc].
  apply level_switcher_known in Hl as [n ->]. now exists n.
Qed.

Lemma table_names_known :
  forallb (fun p : string * string => match level_switcher (snd p) with Some _ => true | None => false end)
          default_cache_level = true.
Proof. vm_compute. reflexivity. Qed.

Lemma table_known s l : dget default_cache_level s = Some l -> known_name l.
Proof.
  intros H. apply dget_In in H.
  pose proof table_names_known as T. rewrite forallb_forall in T. specialize (T _ H). cbn in T.
  apply level_switcher_known. destruct (level_switcher l) as [n|]; [now exists n|discriminate].
Qed.

Lemma entry_level_numeric cur k d : known_name d -> numeric (entry_level cur k d).
Proof.
  intros Hd. unfold entry_level.
  set (name := match k with KStr s => _ | _ => d end).
  assert (Hn : known_name name).
  { subst name. destruct k as [|s|]; [exact Hd| |exact Hd].
    destruct (dget default_cache_level s) as [l|] eqn:E; [now apply table_known in E|exact Hd]. }
  cbn. apply level_switcher_known in Hn as [n ->]. now exists n.
Qed.

Lemma lvl_le_numeric a b : numeric a -> numeric b -> lvl_le a b = Ok (rank a <=? rank b).
Proof. intros [m ->] [n ->]. reflexivity. Qed.

Section Proofs.
  Context {V : Type}.
  Implicit Types (c : cache V) (s : state V).

  (** ** Removal *)

  Lemma remove_entry_level c k : c_level (remove_entry c k) = c_level c.
  Proof. unfold remove_entry. destruct (dmem _ _); reflexivity. Qed.

  Lemma remove_entry_wf c k : wf c -> wf (remove_entry c k).
  Proof.
    unfold remove_entry, wf. destruct (dmem _ _); cbn; [apply NoDup_dpop|auto].
  Qed.

  Lemma remove_entry_stored c k x : wf c ->
    stored (remove_entry c k) x = if String.eqb x k then None else stored c x.
  Proof.
    intros Hwf. unfold remove_entry, stored, dmem.
    destruct (String.eqb_spec x k) as [->|Hne].
    - destruct (dget (c_entries c) k) eqn:E; cbn; [now apply dpop_get_same|exact E].
    - destruct (dget (c_entries c) k) eqn:E; cbn; [now apply dpop_get_other|reflexivity].
  Qed.

  Lemma remove_list_level l : forall c, c_level (fold_left remove_entry l c) = c_level c.
  Proof. induction l as [|k l IH]; intros c; cbn; [reflexivity|]. rewrite IH. apply remove_entry_level. Qed.

  Lemma remove_list_wf l : forall c, wf c -> wf (fold_left remove_entry l c).
  Proof. induction l as [|k l IH]; intros c Hwf; cbn; [exact Hwf|]. apply IH, remove_entry_wf, Hwf. Qed.

  Lemma remove_list_stored l : forall c x, wf c ->
    stored (fold_left remove_entry l c) x = if smem x l then None else stored c x.
  Proof.
    induction l as [|k l IH]; intros c x Hwf; cbn; [reflexivity|].
    rewrite IH by now apply remove_entry_wf. rewrite remove_entry_stored by exact Hwf.
    unfold smem. destruct (String.eqb x k); cbn; [|reflexivity].
    destruct (existsb (String.eqb x) l); reflexivity.
  Qed.

  Lemma remove_from_cache_level c k : c_level (remove_from_cache c k) = c_level c.
  Proof. apply remove_list_level. Qed.

  Lemma remove_from_cache_wf c k : wf c -> wf (remove_from_cache c k).
  Proof. apply remove_list_wf. Qed.

  Lemma remove_from_cache_stored c k x : wf c ->
    stored (remove_from_cache c k) x = if smem x (key_items k) then None else stored c x.
  Proof. apply remove_list_stored. Qed.

  Lemma chars_length1 st x : In x (chars st) -> String.length x = 1%nat.
  Proof. induction st as [|a st IH]; cbn; [easy|]. intros [<-|H]; [reflexivity|auto]. Qed.

  Lemma remove_string_noop c k : wf c -> String.length k <> 1%nat ->
    stored (remove_from_cache c (KeyStr k)) k = stored c k.
  Proof.
    intros Hwf Hlen. rewrite remove_from_cache_stored by exact Hwf. cbn [key_items].
    destruct (smem k (chars k)) eqn:E; [|reflexivity].
    apply smem_In, chars_length1 in E. contradiction.
  Qed.

  Lemma smem_chars st x : smem x (chars st) =
    match x with
    | String a EmptyString => existsb (Ascii.eqb a) (list_ascii_of_string st)
    | _ => false
    end.
  Proof.
    destruct x as [|a [|b x]].
    - destruct (smem "" (chars st)) eqn:E; [|reflexivity].
      apply smem_In, chars_length1 in E. discriminate E.
    - induction st as [|c st IH]; [reflexivity|]. cbn [chars smem existsb list_ascii_of_string].
      unfold smem in *. cbn [existsb]. rewrite IH. f_equal.
      cbn [String.eqb]. destruct (Ascii.eqb a c); reflexivity.
    - destruct (smem (String a (String b x)) (chars st)) eqn:E; [|reflexivity].
      apply smem_In, chars_length1 in E. discriminate E.
  Qed.

  Lemma remove_name_exactly c name k : wf c ->
    stored (remove_from_cache c (KeyStr name)) k =
    match k with
    | String a EmptyString => if existsb (Ascii.eqb a) (list_ascii_of_string name) then None else stored c k
    | _ => stored c k
    end.
  Proof.
    intros Hwf. rewrite remove_from_cache_stored by exact Hwf. cbn [key_items]. rewrite smem_chars.
    destruct k as [|a [|b k]]; reflexivity.
  Qed.

  (** ** Reads *)

  Lemma save_level c k v a : c_level (snd (save c k v a)) = c_level c.
  Proof.
    unfold save. destruct v as [val|e]; [|reflexivity].
    destruct (lvl_le _ _) as [b|e]; [|reflexivity]. destruct (b || a_force a); reflexivity.
  Qed.

  Lemma get_level_field c k v a : c_level (snd (get c k v a)) = c_level c.
  Proof.
    unfold get. destruct (if a_overwrite a then None else _) as [e|]; [reflexivity|].
    destruct (save c k v a) as [[val|e] c'] eqn:E; cbn;
      pose proof (save_level c k v a) as H; rewrite E in H; cbn in H; [|exact H].
    destruct (a_destroy a); [now rewrite remove_from_cache_level|exact H].
  Qed.

  Lemma save_wf c k v a : wf c -> wf (snd (save c k v a)).
  Proof.
    intros Hwf. unfold save. destruct v as [val|e]; [|exact Hwf].
    destruct (lvl_le _ _) as [b|e]; [|exact Hwf]. destruct (b || a_force a); [|exact Hwf].
    cbn. unfold wf. cbn. now apply NoDup_dset.
  Qed.

  Lemma get_wf c k v a : wf c -> wf (snd (get c k v a)).
  Proof.
    intros Hwf. unfold get. destruct (if a_overwrite a then None else _) as [e|]; [exact Hwf|].
    destruct (save c k v a) as [[val|e] c'] eqn:E; cbn;
      pose proof (save_wf c k v a Hwf) as H; rewrite E in H; cbn in H; [|exact H].
    destruct (a_destroy a); [now apply remove_from_cache_wf|exact H].
  Qed.

  (** What is stored after [_save]. *)
  Lemma save_stored c k v a x e : wf c -> stored (snd (save c k v a)) x = Some e ->
    stored c x = Some e \/
    (x = k /\ exists val, v = Ok val /\
       e = Entry (entry_level (c_level c) (a_level_key a) (a_default_level a)) (a_persisting a) val /\
       exists b, lvl_le (e_level e) (c_level c) = Ok b /\ b || a_force a = true).
  Proof.
    intros Hwf. unfold save. destruct v as [val|err]; cbn; [|auto].
    destruct (lvl_le _ _) as [b|err] eqn:El; cbn; [|auto].
    destruct (b || a_force a) eqn:Eb; cbn; [|auto].
    unfold stored; cbn. destruct (String.eqb_spec x k) as [->|Hne].
    - rewrite dset_get_same. intros H. injection H as <-. right. split; [reflexivity|].
      exists val. split; [reflexivity|]. split; [reflexivity|]. exists b. split; [exact El|exact Eb].
    - rewrite dset_get_other by exact Hne. auto.
  Qed.

  Lemma get_stored c k v a x e : wf c -> stored (snd (get c k v a)) x = Some e ->
    stored c x = Some e \/
    (x = k /\ exists val, v = Ok val /\
       e = Entry (entry_level (c_level c) (a_level_key a) (a_default_level a)) (a_persisting a) val /\
       exists b, lvl_le (e_level e) (c_level c) = Ok b /\ b || a_force a = true).
  Proof.
    intros Hwf. unfold get. destruct (if a_overwrite a then None else _) as [e0|]; [cbn; auto|].
    destruct (save c k v a) as [[val|err] c'] eqn:E; cbn;
      pose proof (save_wf c k v a Hwf) as Hwf';
      pose proof (save_stored c k v a x e Hwf) as H; rewrite E in H, Hwf'; cbn in H, Hwf'.
    - destruct (a_destroy a); [|exact H].
      rewrite remove_from_cache_stored by exact Hwf'.
      destruct (smem x _); [discriminate|exact H].
    - exact H.
  Qed.

  Lemma get_result c k v a : numeric (c_level c) -> known_name (a_default_level a) ->
    fst (get c k v a) =
    match (if a_overwrite a then None else stored c k) with
    | Some e => Ok (e_val e)
    | None => v
    end.
  Proof.
    intros Hc Ha. unfold get, stored. destruct (if a_overwrite a then None else _) as [e0|]; [reflexivity|].
    unfold save. destruct v as [val|err]; [|reflexivity].
    rewrite lvl_le_numeric by (try apply entry_level_numeric; assumption).
    destruct (_ || a_force a); reflexivity.
  Qed.

  (** ** Reset *)

  Lemma reset_entry_level p av c k : c_level (reset_entry p av c k) = c_level c.
  Proof.
    unfold reset_entry. destruct (dget _ _) as [e|]; [|reflexivity].
    destruct (smem k av); [reflexivity|]. destruct (_ || p); reflexivity.
  Qed.

  Lemma reset_entry_wf p av c k : wf c -> wf (reset_entry p av c k).
  Proof.
    intros Hwf. unfold reset_entry. destruct (dget _ _) as [e|]; [|exact Hwf].
    destruct (smem k av); [exact Hwf|]. destruct (_ || p); [|exact Hwf].
    unfold wf; cbn. now apply NoDup_dpop.
  Qed.

  (** The fate of an entry under a reset. *)
  Definition survives (p : bool) (av : list string) (k : string) (e : entry V) : bool :=
    smem k av || (e_persisting e && negb p).

  Definition reset_fate p av k (o : option (entry V)) : option (entry V) :=
    match o with Some e => if survives p av k e then Some e else None | None => None end.

  Lemma reset_entry_stored p av c k x : wf c ->
    stored (reset_entry p av c k) x =
    if String.eqb x k then reset_fate p av x (stored c x) else stored c x.
  Proof.
    intros Hwf. unfold reset_entry, stored, reset_fate, survives.
    destruct (String.eqb_spec x k) as [->|Hne].
    - destruct (dget (c_entries c) k) as [e|] eqn:E; [|exact E].
      destruct (smem k av) eqn:Es; cbn; [exact E|].
      destruct (e_persisting e), p; cbn; try exact E; now apply dpop_get_same.
    - destruct (dget (c_entries c) k) as [e|] eqn:E; [|reflexivity].
      destruct (smem k av); [reflexivity|]. destruct (_ || p); [|reflexivity].
      cbn. now apply dpop_get_other.
  Qed.

  Lemma reset_fate_idem p av k o : reset_fate p av k (reset_fate p av k o) = reset_fate p av k o.
  Proof. destruct o as [e|]; cbn; [|reflexivity]. destruct (survives p av k e) eqn:E; cbn; [now rewrite E|reflexivity]. Qed.

  Lemma reset_loop_level p av l : forall c, c_level (fold_left (reset_entry p av) l c) = c_level c.
  Proof. induction l as [|k l IH]; intros c; cbn; [reflexivity|]. rewrite IH. apply reset_entry_level. Qed.

  Lemma reset_loop_wf p av l : forall c, wf c -> wf (fold_left (reset_entry p av) l c).
  Proof. induction l as [|k l IH]; intros c Hwf; cbn; [exact Hwf|]. apply IH, reset_entry_wf, Hwf. Qed.

  Lemma reset_loop_stored p av l : forall c x, wf c ->
    stored (fold_left (reset_entry p av) l c) x =
    if smem x l then reset_fate p av x (stored c x) else stored c x.
  Proof.
    induction l as [|k l IH]; intros c x Hwf; cbn; [reflexivity|].
    rewrite IH by now apply reset_entry_wf. rewrite reset_entry_stored by exact Hwf.
    unfold smem. destruct (String.eqb x k); cbn; [|reflexivity].
    rewrite reset_fate_idem. now destruct (existsb (String.eqb x) l).
  Qed.

  Lemma reset_cache_level c p av : c_level (reset_cache c p av) = c_level c.
  Proof. unfold reset_cache. destruct (p && _); [reflexivity|apply reset_loop_level]. Qed.

  Lemma reset_cache_wf c p av : wf c -> wf (reset_cache c p av).
  Proof.
    intros Hwf. unfold reset_cache. destruct (p && _); [constructor|apply reset_loop_wf, Hwf].
  Qed.

  Lemma reset_cache_stored c p av x : wf c ->
    stored (reset_cache c p av) x = reset_fate p av x (stored c x).
  Proof.
    intros Hwf. unfold reset_cache.
    destruct (p && _) eqn:E.
    - apply andb_true_iff in E as [-> Hav]. apply Nat.eqb_eq in Hav.
      destruct av; [|discriminate]. cbn. unfold reset_fate, survives. cbn.
      destruct (stored c x) as [e|]; [|reflexivity]. now rewrite andb_false_r.
    - rewrite reset_loop_stored by exact Hwf.
      destruct (smem x (dkeys (c_entries c))) eqn:Em; [reflexivity|].
      apply smem_not_In, dget_None in Em. unfold stored. now rewrite Em.
  Qed.

  (** ** Cleaning *)

  Lemma clean_loop_level ks m : forall c, c_level (snd (clean_loop ks m c)) = c_level c.
  Proof.
    induction ks as [|k ks IH]; intros c; cbn; [reflexivity|].
    destruct (dget _ _) as [e|]; [|apply IH].
    destruct (lvl_gt _ _) as [[|]|]; [rewrite IH; reflexivity|apply IH|reflexivity].
  Qed.

  Lemma clean_cache_level c l : c_level (snd (clean_cache c l)) = c_level c.
  Proof.
    unfold clean_cache. destruct (lvl_is_zero _); cbn; [reflexivity|apply clean_loop_level].
  Qed.

  Lemma clean_loop_wf ks m : forall c, wf c -> wf (snd (clean_loop ks m c)).
  Proof.
    induction ks as [|k ks IH]; intros c Hwf; cbn; [exact Hwf|].
    destruct (dget _ _) as [e|]; [|now apply IH].
    destruct (lvl_gt _ _) as [[|]|]; [|now apply IH|exact Hwf].
    apply IH. unfold wf; cbn. now apply NoDup_dpop.
  Qed.

  Lemma clean_cache_wf c l : wf c -> wf (snd (clean_cache c l)).
  Proof.
    intros Hwf. unfold clean_cache. destruct (lvl_is_zero _); cbn; [constructor|now apply clean_loop_wf].
  Qed.

  (** Cleaning never invents or alters an entry. *)
  Lemma clean_loop_sub ks m : forall c x e, wf c ->
    stored (snd (clean_loop ks m c)) x = Some e -> stored c x = Some e.
  Proof.
    induction ks as [|k ks IH]; intros c x e Hwf; cbn; [auto|].
    destruct (dget (c_entries c) k) as [e0|] eqn:E; [|now apply IH].
    destruct (lvl_gt _ _) as [[|]|]; [|now apply IH|auto].
    intros H. apply IH in H; [|unfold wf; cbn; now apply NoDup_dpop].
    unfold stored in *; cbn in H. destruct (String.eqb_spec x k) as [->|Hne].
    - rewrite dpop_get_same in H by exact Hwf. discriminate.
    - now rewrite dpop_get_other in H.
  Qed.

  Lemma clean_cache_sub c l x e : wf c ->
    stored (snd (clean_cache c l)) x = Some e -> stored c x = Some e.
  Proof.
    intros Hwf. unfold clean_cache. destruct (lvl_is_zero _); cbn; [discriminate|now apply clean_loop_sub].
  Qed.

  Definition numeric_entries c := forall k e, stored c k = Some e -> numeric (e_level e).

  Definition clean_fate (m : Z) (o : option (entry V)) : option (entry V) :=
    match o with Some e => if rank (e_level e) >? m then None else Some e | None => None end.

  Lemma clean_loop_stored ks m : forall c x, wf c -> numeric_entries c ->
    fst (clean_loop ks (LInt m) c) = Ok tt /\
    stored (snd (clean_loop ks (LInt m) c)) x =
    if smem x ks then clean_fate m (stored c x) else stored c x.
  Proof.
    induction ks as [|k ks IH]; intros c x Hwf Hnum; cbn [clean_loop]; [split; reflexivity|].
    unfold smem; cbn [existsb]; fold (smem x ks).
    destruct (dget (c_entries c) k) as [e|] eqn:E.
    - destruct (Hnum k e E) as [n Hn]. rewrite Hn. unfold lvl_gt, lvl_le.
      destruct (Z.leb_spec n m) as [Hle|Hgt]; cbn [negb].
      + specialize (IH c x Hwf Hnum) as [IH1 IH2]. split; [exact IH1|]. rewrite IH2.
        destruct (String.eqb_spec x k) as [->|Hne]; cbn; [|reflexivity].
        change (stored c k) with (dget (c_entries c) k). rewrite E. cbn. rewrite Hn. cbn.
        replace (n >? m) with false by lia. destruct (smem k ks); reflexivity.
      + set (c' := with_entries c (dpop (c_entries c) k)).
        assert (Hwf' : wf c') by (unfold wf; cbn; now apply NoDup_dpop).
        assert (Hx : forall y, stored c' y = if String.eqb y k then None else stored c y).
        { intros y. unfold stored, c'; cbn. destruct (String.eqb_spec y k) as [->|Hne].
          - now apply dpop_get_same. - now apply dpop_get_other. }
        assert (Hnum' : numeric_entries c').
        { intros y e' Hy. rewrite Hx in Hy. destruct (String.eqb y k); [discriminate|eauto]. }
        specialize (IH c' x Hwf' Hnum') as [IH1 IH2]. split; [exact IH1|]. rewrite IH2, Hx.
        destruct (String.eqb_spec x k) as [->|Hne]; cbn; [|reflexivity].
        change (stored c k) with (dget (c_entries c) k). rewrite E. cbn. rewrite Hn. cbn.
        replace (n >? m) with true by lia. destruct (smem k ks); reflexivity.
    - specialize (IH c x Hwf Hnum) as [IH1 IH2]. split; [exact IH1|]. rewrite IH2.
      destruct (String.eqb_spec x k) as [->|Hne]; cbn; [|reflexivity].
      change (stored c k) with (dget (c_entries c) k). rewrite E. cbn. now destruct (smem k ks).
  Qed.

  Lemma clean_cache_stored c l m x : wf c -> numeric_entries c ->
    get_level (c_level c) l = LInt m -> m <> 0 ->
    fst (clean_cache c l) = Ok tt /\
    stored (snd (clean_cache c l)) x = clean_fate m (stored c x).
  Proof.
    intros Hwf Hnum Hl Hm. unfold clean_cache. rewrite Hl. cbn [lvl_is_zero].
    destruct (Z.eqb_spec m 0); [contradiction|].
    destruct (clean_loop_stored (dkeys (c_entries c)) m c x Hwf Hnum) as [H1 H2].
    split; [exact H1|]. rewrite H2.
    destruct (smem x (dkeys (c_entries c))) eqn:Em; [reflexivity|].
    apply smem_not_In, dget_None in Em. unfold stored. now rewrite Em.
  Qed.

  Lemma clean_cache_none c l : get_level (c_level c) l = LInt 0 ->
    clean_cache c l = (Ok tt, with_entries c []).
  Proof. intros Hl. unfold clean_cache. rewrite Hl. reflexivity. Qed.

  (** ** The transparency invariant *)

  Definition Inv s : Prop :=
    wf (s_cache s) /\ numeric (c_level (s_cache s)) /\
    forall k e, stored (s_cache s) k = Some e -> s_world s k = Ok (e_val e).

  Lemma Inv_init l w : known_level (Some l) -> Inv (MkState (init_cache l) w).
  Proof.
    intros Hl. split; [constructor|]. split.
    - cbn. apply (get_level_numeric (LInt 2) (Some l)); [now exists 2|exact Hl].
    - cbn. discriminate.
  Qed.

  Lemma Inv_step s o : Inv s -> admissible s o -> Inv (snd (step s o)).
  Proof.
    intros (Hwf & Hnum & Hfresh) Hadm. destruct o as [k a|p av|l|k|l|w]; cbn [step].
    - destruct (get (s_cache s) k (s_world s k) a) as [r c'] eqn:E. cbn [snd].
      pose proof (get_wf (s_cache s) k (s_world s k) a Hwf) as H1.
      pose proof (get_level_field (s_cache s) k (s_world s k) a) as H2.
      rewrite E in H1, H2; cbn in H1, H2.
      split; [exact H1|]. split; [cbn; now rewrite H2|]. cbn. intros x e Hx.
      pose proof (get_stored (s_cache s) k (s_world s k) a x e Hwf) as H3.
      rewrite E in H3; cbn in H3. destruct (H3 Hx) as [Hold|(-> & val & Hv & -> & _)].
      + now apply Hfresh.
      + exact Hv.
    - split; [now apply reset_cache_wf|]. split; [cbn; now rewrite reset_cache_level|].
      cbn. intros x e. rewrite reset_cache_stored by exact Hwf. unfold reset_fate.
      destruct (stored (s_cache s) x) as [e0|] eqn:E0; [|discriminate].
      destruct (survives p av x e0); [|discriminate]. intros H; injection H as <-. now apply Hfresh.
    - split; [now apply clean_cache_wf|]. split; [cbn; now rewrite clean_cache_level|].
      cbn. intros x e H. apply Hfresh. now apply clean_cache_sub in H.
    - split; [now apply remove_from_cache_wf|]. split; [cbn; now rewrite remove_from_cache_level|].
      cbn. intros x e. rewrite remove_from_cache_stored by exact Hwf.
      destruct (smem x _); [discriminate|]. apply Hfresh.
    - split; [exact Hwf|]. split; [cbn; now apply get_level_numeric|exact Hfresh].
    - split; [exact Hwf|]. split; [exact Hnum|]. cbn. intros x e Hx.
      rewrite (Hadm x e Hx). now apply Hfresh.
  Qed.

  Lemma step_fresh s o : Inv s -> admissible s o -> read_is_fresh (s_world s, fst (step s o)).
  Proof.
    intros (Hwf & Hnum & Hfresh) Hadm. destruct o as [k a|p av|l|k|l|w]; cbn; auto.
    destruct (get (s_cache s) k (s_world s k) a) as [r c'] eqn:E. cbn.
    pose proof (get_result (s_cache s) k (s_world s k) a Hnum Hadm) as H.
    rewrite E in H; cbn in H. rewrite H.
    destruct (a_overwrite a); [reflexivity|].
    destruct (stored (s_cache s) k) as [e|] eqn:Es; [|reflexivity].
    symmetry. now apply Hfresh.
  Qed.

  Lemma run_fresh os : forall s, Inv s -> admissible_history s os ->
    Forall read_is_fresh (fst (run s os)) /\ Inv (snd (run s os)).
  Proof.
    induction os as [|o os IH]; intros s Hs; cbn [run admissible_history].
    - intros _. split; [constructor|exact Hs].
    - intros [Ho Hos]. pose proof (step_fresh s o Hs Ho) as Hf.
      pose proof (Inv_step s o Hs Ho) as Hi.
      destruct (step s o) as [r s'] eqn:E. cbn [fst snd] in *.
      specialize (IH s' Hi Hos). destruct (run s' os) as [rs s''] eqn:E2. cbn [fst snd] in *.
      destruct IH as [IH1 IH2]. split; [constructor; assumption|exact IH2].
  Qed.

  Theorem cache_transparency l (w : string -> result V) (os : list (op V)) :
    known_level (Some l) ->
    admissible_history (MkState (init_cache l) w) os ->
    Forall read_is_fresh (fst (run (MkState (init_cache l) w) os)).
  Proof. intros Hl Hos. apply run_fresh; [now apply Inv_init|exact Hos]. Qed.

  (** With unchanged inputs the outputs do not depend on the cache at all. *)
  Fixpoint uncached (w : string -> result V) (os : list (op V)) : list (out V) :=
    match os with
    | [] => []
    | OGet k _ :: os' => ORead k (w k) :: uncached w os'
    | _ :: os' => ODone :: uncached w os'
    end.

  Definition known_op (o : op V) : Prop :=
    match o with
    | OGet _ a => known_name (a_default_level a)
    | OSetLevel l => known_level l
    | OWorld _ => False
    | _ => True
    end.

  Lemma run_uncached os : forall s, Inv s -> Forall known_op os ->
    map snd (fst (run s os)) = uncached (s_world s) os.
  Proof.
    induction os as [|o os IH]; intros s Hs Hk; [reflexivity|].
    inversion Hk as [|? ? Ho Hos]; subst.
    assert (Hadm : admissible s o) by (destruct o; cbn in *; auto; contradiction).
    assert (Hw : s_world (snd (step s o)) = s_world s).
    { destruct o; cbn; auto; try contradiction. now destruct (get _ _ _ _). }
    pose proof (step_fresh s o Hs Hadm) as Hf.
    pose proof (Inv_step s o Hs Hadm) as Hi. cbn [run].
    assert (Hout : fst (step s o) = match o with OGet k _ => ORead k (s_world s k) | _ => ODone end).
    { destruct o; cbn in *; auto.
      destruct (get (s_cache s) key (s_world s key) a) as [r c']. cbn in *. now rewrite Hf. }
    destruct (step s o) as [r s'] eqn:E. cbn [fst snd] in *.
    specialize (IH s' Hi Hos). destruct (run s' os) as [rs s''] eqn:E2. cbn [fst snd map] in *.
    rewrite IH, Hw, Hout. destruct o; reflexivity.
  Qed.

  Theorem cache_never_changes_results l (w : string -> result V) (os : list (op V)) :
    known_level (Some l) -> Forall known_op os ->
    map snd (fst (run (MkState (init_cache l) w) os)) = uncached w os.
  Proof. intros Hl Hk. apply (run_uncached os (MkState (init_cache l) w)); [now apply Inv_init|exact Hk]. Qed.

  (** ** Level bound *)

  Definition BInv s : Prop :=
    wf (s_cache s) /\ numeric (c_level (s_cache s)) /\ level_bounded (s_cache s).

  Lemma BInv_step s o : BInv s -> no_force_no_lowering s o -> BInv (snd (step s o)).
  Proof.
    intros (Hwf & Hnum & Hb) Hadm. destruct o as [k a|p av|l|k|l|w]; cbn [step].
    - destruct (get (s_cache s) k (s_world s k) a) as [r c'] eqn:E. cbn [snd].
      pose proof (get_wf (s_cache s) k (s_world s k) a Hwf) as H1.
      pose proof (get_level_field (s_cache s) k (s_world s k) a) as H2.
      rewrite E in H1, H2; cbn in H1, H2.
      split; [exact H1|]. split; [cbn; now rewrite H2|]. cbn. intros x e Hx.
      pose proof (get_stored (s_cache s) k (s_world s k) a x e Hwf) as H3.
      rewrite E in H3; cbn in H3. rewrite H2.
      destruct (H3 Hx) as [Hold|(-> & val & Hv & He & b & Hle & Hbf)].
      + now apply Hb in Hold.
      + cbn in Hadm. destruct Hadm as [Hf Hd]. rewrite Hf, orb_false_r in Hbf. subst b.
        rewrite lvl_le_numeric in Hle; [injection Hle; lia| |exact Hnum].
        rewrite He; cbn. now apply entry_level_numeric.
    - split; [now apply reset_cache_wf|]. split; [cbn; now rewrite reset_cache_level|].
      cbn. intros x e. rewrite reset_cache_stored, reset_cache_level by exact Hwf. unfold reset_fate.
      destruct (stored (s_cache s) x) as [e0|] eqn:E0; [|discriminate].
      destruct (survives p av x e0); [|discriminate]. intros H; injection H as <-. eapply Hb, E0.
    - split; [now apply clean_cache_wf|]. split; [cbn; now rewrite clean_cache_level|].
      cbn. intros x e H. rewrite clean_cache_level. apply clean_cache_sub in H; [|exact Hwf]. eapply Hb, H.
    - split; [now apply remove_from_cache_wf|]. split; [cbn; now rewrite remove_from_cache_level|].
      cbn. intros x e. rewrite remove_from_cache_stored, remove_from_cache_level by exact Hwf.
      destruct (smem x _); [discriminate|]. apply Hb.
    - cbn in Hadm. destruct Hadm as [Hk Hle].
      split; [exact Hwf|]. split; [cbn; now apply get_level_numeric|].
      cbn. intros x e Hx. cbn. apply Hb in Hx. lia.
    - split; [exact Hwf|]. split; [exact Hnum|exact Hb].
  Qed.

  Lemma BInv_run os : forall s, BInv s -> history_all no_force_no_lowering s os -> BInv (snd (run s os)).
  Proof.
    induction os as [|o os IH]; intros s Hs; cbn [run history_all]; [auto|].
    intros [Ho Hos]. pose proof (BInv_step s o Hs Ho) as Hi.
    destruct (step s o) as [r s'] eqn:E. cbn [snd] in *.
    specialize (IH s' Hi Hos). destruct (run s' os) as [rs s'']. exact IH.
  Qed.

  Lemma BInv_init l w : known_level (Some l) -> BInv (MkState (init_cache l) w).
  Proof.
    intros Hl. split; [constructor|]. split.
    - cbn. apply (get_level_numeric (LInt 2) (Some l)); [now exists 2|exact Hl].
    - intros k e. cbn. discriminate.
  Qed.

  Theorem level_bound_invariant l (w : string -> result V) (os : list (op V)) :
    known_level (Some l) ->
    history_all no_force_no_lowering (MkState (init_cache l) w) os ->
    level_bounded (s_cache (snd (run (MkState (init_cache l) w) os))).
  Proof. intros Hl Hos. apply BInv_run; [now apply BInv_init|exact Hos]. Qed.

  (** Cleaning at the current level restores the bound, whatever was forced. *)
  Lemma clean_restores_bound c : wf c -> numeric_entries c -> numeric (c_level c) ->
    level_bounded (snd (clean_cache c None)).
  Proof.
    intros Hwf Hnum [m Hm] k e. rewrite clean_cache_level, Hm. cbn [rank].
    destruct (Z.eq_dec m 0) as [->|Hne].
    - rewrite (clean_cache_none c None) by exact Hm. discriminate.
    - destruct (clean_cache_stored c None m k Hwf Hnum Hm Hne) as [_ H]. rewrite H.
      unfold clean_fate. destruct (stored c k) as [e0|]; [|discriminate].
      destruct (rank (e_level e0) >? m) eqn:Eg; [discriminate|]. intros H0; injection H0 as <-. lia.
  Qed.
End Proofs.
