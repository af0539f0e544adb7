(** Executions of the cache model on which an expected property fails. *)
From Coq Require Import QArith.
From Verif Require Import Base BaseProofs Cache CacheSpec CacheProofs Tree TreeProofs ModuleTree ModuleTreeProofs.
Open Scope string_scope.
Open Scope Z_scope.

(** A read with every option at its default. *)
Definition plain_read (k : string) : op nat := OGet k default_args.

Lemma level_bound_refuted_lowering :
  exists (w : string -> result nat) (os : list (op nat)),
    Forall known_op os /\
    Forall (fun o => match o with OGet _ a => a_force a = false | _ => True end) os /\
    ~ level_bounded (s_cache (snd (run (MkState (init_cache (LStr "normal")) w) os))).
Proof.
  exists (fun _ => Ok 7%nat), [plain_read "v"; OSetLevel (Some (LStr "light"))].
  split; [repeat constructor; cbn; tauto|]. split; [repeat constructor|].
  intros H. specialize (H "v" (Entry (LInt 2) false 7%nat) eq_refl). vm_compute in H. now apply H.
Qed.

(** The arguments of the read of the sample distances
    (kernel/distance/distance.py:16). *)
Definition distance_args : get_args := GetArgs KNone "total" true false false false.

Lemma level_bound_refuted_forced :
  exists (w : string -> result nat),
    ~ level_bounded (s_cache (snd (run (MkState (init_cache (LStr "normal")) w)
                                       [OGet "_kernel_dist_sample" distance_args]))).
Proof.
  exists (fun _ => Ok 7%nat). intros H.
  specialize (H "_kernel_dist_sample" (Entry (LInt 4) false 7%nat) eq_refl). vm_compute in H. now apply H.
Qed.

Lemma reset_default_refuted :
  exists t : tree (cmodule nat), all_nodes (fun m => cm_is_cache m = true) t /\
    ~ all_nodes emptied (reset_default t).
Proof.
  exists (Node (CModule true (init_cache (LStr "normal")))
           [Node (CModule true (MkCache (LInt 2) [("K", Entry (LInt 1) false 3%nat)])) []]).
  split; [cbn; tauto|]. cbn. intros (_ & (H & _) & _). discriminate H.
Qed.

Lemma reset_plain_in_between_refuted :
  exists t : tree (cmodule nat), cm_is_cache (root t) = true /\
    ~ all_nodes (fun m => cm_is_cache m = true -> emptied m) (reset true true t).
Proof.
  exists (Node (CModule true (init_cache (LStr "normal")))
           [Node (CModule false (init_cache (LStr "normal")))
             [Node (CModule true (MkCache (LInt 2) [("K", Entry (LInt 1) false 3%nat)])) []]]).
  split; [reflexivity|]. cbn. intros (_ & (_ & (H & _) & _) & _). discriminate (H eq_refl).
Qed.

Lemma remove_by_name_hits_others :
  exists (c : cache nat), wf c /\ stored c "C" <> None /\
    stored (remove_from_cache c (KeyStr "Centered")) "C" = None.
Proof.
  exists (MkCache (LInt 2) [("C", Entry (LInt 1) false 3%nat)]).
  split; [repeat constructor; cbn; tauto|]. split; [discriminate|reflexivity].
Qed.

Section Destroy.
  Context {V : Type}.

  Definition with_destroy (a : get_args) : get_args :=
    GetArgs (a_level_key a) (a_default_level a) (a_force a) (a_overwrite a) (a_persisting a) true.

  Definition without_destroy (a : get_args) : get_args :=
    GetArgs (a_level_key a) (a_default_level a) (a_force a) (a_overwrite a) (a_persisting a) false.
  Lemma save_destroy (c : cache V) k v a : save c k v (with_destroy a) = save c k v (without_destroy a).
  Proof. reflexivity. Qed.
  Lemma chars_length s x : smem x (chars s) = true -> String.length x = 1%nat.
  Proof.
    induction s as [|c s IH]; cbn; [discriminate|]. destruct (String.eqb x (String c EmptyString)) eqn:E.
    - intros _. apply String.eqb_eq in E. now rewrite E.
    - exact IH.
  Qed.
  (** [destroy] only matters for names of one letter. *)
  Lemma destroy_long (c : cache V) k v a x : wf c -> String.length x <> 1%nat ->
    fst (get c k v (with_destroy a)) = fst (get c k v (without_destroy a)) /\
    stored (snd (get c k v (with_destroy a))) x = stored (snd (get c k v (without_destroy a))) x.
  Proof.
    intros Hwf Hx. unfold get. rewrite save_destroy. cbn [a_overwrite with_destroy without_destroy a_destroy].
    destruct (if a_overwrite a then None else dget (c_entries c) k); [split; reflexivity|].
    pose proof (save_wf c k v (without_destroy a) Hwf) as W.
    destruct (save c k v (without_destroy a)) as [[val|e] c']; cbn [fst snd] in *; [|split; reflexivity].
    split; [reflexivity|]. rewrite remove_from_cache_stored by exact W. cbn [key_items].
    destruct (smem x (chars k)) eqn:E; [|reflexivity]. exfalso. exact (Hx (chars_length _ _ E)).
  Qed.
  Lemma destroy_one (c : cache V) (l : ascii) val a : wf c -> stored c (String l EmptyString) = None \/ a_overwrite a = true ->
    is_ok (fst (get c (String l EmptyString) (Ok val) (with_destroy a))) = true ->
    stored (snd (get c (String l EmptyString) (Ok val) (with_destroy a))) (String l EmptyString) = None.
  Proof.
    intros Hwf Hm. unfold get. cbn [a_overwrite with_destroy a_destroy].
    replace (if a_overwrite a then None else dget (c_entries c) (String l EmptyString)) with (@None (entry V))
      by (destruct Hm as [Hm|Hm]; [unfold stored in Hm; rewrite Hm; now destruct (a_overwrite a)|now rewrite Hm]).
    pose proof (save_wf c (String l EmptyString) (Ok val) (with_destroy a) Hwf) as W.
    destruct (save c (String l EmptyString) (Ok val) (with_destroy a)) as [[v'|e] c']; cbn [fst snd is_ok] in *; [|discriminate].
    intros _. rewrite remove_from_cache_stored by exact W. cbn. rewrite Ascii.eqb_refl. reflexivity.
  Qed.

  (** Reading with [destroy] a key that is present leaves it present. *)
  Lemma destroy_hit (c : cache V) k v a e : stored c k = Some e -> a_overwrite a = false ->
    snd (get c k v (with_destroy a)) = c.
  Proof. unfold stored. intros H Ho. unfold get. cbn. now rewrite Ho, H. Qed.

  (** Reading with [destroy] a key that is absent stores it, unless its name
      has exactly one character. *)
  Lemma destroy_miss (c : cache V) k val a : wf c -> numeric (c_level c) ->
    known_name (a_default_level a) -> a_force a = true -> String.length k <> 1%nat ->
    stored c k = None ->
    exists e, stored (snd (get c k (Ok val) (with_destroy a))) k = Some e /\ e_val e = val.
  Proof.
    intros Hwf Hnum Hd Hf Hlen Hnone. unfold get.
    replace (if a_overwrite (with_destroy a) then None else dget (c_entries c) k) with (@None (entry V))
      by (unfold stored in Hnone; rewrite Hnone; now destruct (a_overwrite _)).
    unfold save. cbn [a_level_key a_default_level a_force a_persisting a_destroy with_destroy].
    rewrite lvl_le_numeric by (try apply entry_level_numeric; assumption).
    rewrite Hf, orb_true_r. cbn [snd].
    set (e := Entry (entry_level (c_level c) (a_level_key a) (a_default_level a)) (a_persisting a) val).
    exists e. split; [|reflexivity].
    rewrite remove_string_noop; [|unfold wf; cbn; now apply NoDup_dset|exact Hlen].
    unfold stored; cbn. apply dset_get_same.
  Qed.
End Destroy.

(** Unknown level names. *)
Section Unknown.
  Context {V : Type}.

  Lemma unknown_level_accepted (c : cache V) s : ~ known_name s ->
    let c' := set_level c (Some (LStr s)) in
    c_entries c' = c_entries c /\
    get_level_name c' = Err EKeyError /\
    forall k val a, known_name (a_default_level a) -> stored c k = None ->
      fst (get c' k (Ok val) a) = Err ETypeError.
  Proof.
    intros Hs c'. subst c'. cbn [set_level c_entries].
    split; [reflexivity|]. unfold get_level_name, set_level. cbn [c_level get_level].
    rewrite (level_switcher_unknown s Hs). split; [reflexivity|]. intros k val a Ha Hk.
    unfold get. cbn [c_entries]. unfold stored in Hk. rewrite Hk.
    replace (if a_overwrite a then None else None) with (@None (entry V)) by now destruct (a_overwrite a).
    unfold save. cbn [c_level c_entries].
    destruct (entry_level_numeric (LStr "Unrecognized cache level.") (a_level_key a) (a_default_level a) Ha) as [n ->].
    reflexivity.
  Qed.

  Lemma known_level_set (c : cache V) s : known_name s ->
    get_level_name (set_level c (Some (LStr s))) = Ok s /\ c_entries (set_level c (Some (LStr s))) = c_entries c.
  Proof.
    intros Hs. split; [|reflexivity].
    unfold known_name in Hs. cbn in Hs. destruct Hs as [<-|[<-|[<-|[<-|[<-|[]]]]]]; reflexivity.
  Qed.
End Unknown.

(** Held trees keep their level. *)
Lemma set_level_held_entries c l : c_entries (set_level_held c l) = c_entries c.
Proof.
  unfold set_level_held. cbn. induction (c_entries c) as [|[k e] d IH]; cbn; [reflexivity|]. now rewrite IH.
Qed.

Lemma level_propagation_refuted :
  exists (c : cache held) s, known_name s /\ held_at c (c_level c) /\
    let c' := set_level_held c (Some (LStr s)) in ~ held_at c' (c_level c').
Proof.
  exists (MkCache (LInt 2) [("sample_transform", Entry (LInt 0) false (HTree (LInt 2)))]), "light".
  split; [cbn; tauto|]. split.
  - intros k e l'. unfold stored; cbn [c_entries dget c_level]. destruct (String.eqb "sample_transform" k); [|intros H; discriminate H].
    intros H; injection H as <-. cbn. now intros H; injection H as <-.
  - cbn. intros H. specialize (H "sample_transform" _ _ eq_refl eq_refl). discriminate H.
Qed.

(** Porting applies the function twice to a cached tensor of a child. *)
Lemma porting_once_refuted :
  exists t : tree (pmodule nat), all_nodes (fun m => pm_is_cache m = true) t /\
    apply_fuel 10 S t <> Ok (ported_once S t).
Proof.
  exists (Node (PModule true [0%nat]) [Node (PModule true [0%nat]) []]).
  split; [cbn; tauto|]. vm_compute. discriminate.
Qed.

(** Selections. *)
Lemma empty_selection_refuted :
  exists n p perm, 0 < n /\ (0 < p)%Q /\ (p <= 1)%Q /\ Permutation.Permutation perm (range n) /\
    selection n (proportion p perm) = Ok [].
Proof.
  exists 1, (1 # 2)%Q, [0]. repeat split; try reflexivity; try discriminate.
Qed.

Lemma invalid_indices_accepted (m : smodule nat) ts n : sm_num m = Some n ->
  fst (stochastic (idx_request [n]) (Node m ts)) = Ok tt /\
  sm_idx (root (snd (stochastic (idx_request [n]) (Node m ts)))) = Some [n].
Proof. intros En. cbn [stochastic]. rewrite En. cbn. split; reflexivity. Qed.

(** An uninitialised module in between blocks the propagation. *)
Lemma propagation_blocked :
  exists t : tree (smodule nat), sm_num (root t) = Some 2 /\
    ~ all_nodes (fun m => sm_num m <> None -> sm_idx m = Some [1])
        (snd (stochastic (idx_request [1]) t)).
Proof.
  set (c := init_cache (LStr "normal") : cache nat).
  exists (Node (SModule KStochastic (Some 2) None c)
           [Node (SModule KStochastic None None c)
             [Node (SModule KStochastic (Some 2) (Some [0]) c) []]]).
  split; [reflexivity|]. cbn. intros (_ & (_ & (H & _) & _) & _).
  discriminate (H ltac:(discriminate)).
Qed.
