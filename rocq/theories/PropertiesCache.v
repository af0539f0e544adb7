(** Property theorems C01-C13: caches, module hierarchies, selections. *)
From Coq Require Import QArith Permutation.
From Verif Require Import Base BaseProofs Cache CacheSpec CacheProofs Tree TreeProofs ModuleTree ModuleTreeProofs CacheRefutations HeldProofs.
Open Scope string_scope.
Open Scope Z_scope.

(** * C01 *)

(** Every read of every admissible history returns what its computation gives at that moment. *)
Theorem C01_cached_reads_are_fresh :
  forall (V : Type) (l : lvl) (w : string -> result V) (os : list (op V)),
    known_level (Some l) ->
    admissible_history (MkState (init_cache l) w) os ->
    Forall read_is_fresh (fst (run (MkState (init_cache l) w) os)).
Proof. intros V. exact cache_transparency. Qed.
Print Assumptions C01_cached_reads_are_fresh.

(** With unchanged inputs, the results are those obtained without any cache,
    whatever the levels, flags, resets, cleanings and removals. *)
Theorem C01_caching_never_changes_results :
  forall (V : Type) (l : lvl) (w : string -> result V) (os : list (op V)),
    known_level (Some l) -> Forall known_op os ->
    map snd (fst (run (MkState (init_cache l) w) os)) = uncached w os.
Proof. intros V. exact cache_never_changes_results. Qed.
Print Assumptions C01_caching_never_changes_results.

(** A history with a stored value, an invalidation and an input change meets the hypotheses. *)
Example C01_nontrivial :
  let w1 := fun _ : string => Ok 1%nat in
  let w2 := fun k : string => if String.eqb k "K" then Ok 2%nat else Ok 1%nat in
  let os := [OGet "K" default_args; OGet "phi" default_args; OGet "K" default_args;
             OReset false []; OWorld w2; OGet "K" default_args;
             OSetLevel (Some (LStr "none")); OGet "phi" distance_args] in
  known_level (Some (LStr "normal")) /\
  admissible_history (MkState (init_cache (LStr "normal")) w1) os /\
  map snd (fst (run (MkState (init_cache (LStr "normal")) w1) os)) =
  [ORead "K" (Ok 1%nat); ORead "phi" (Ok 1%nat); ORead "K" (Ok 1%nat); ODone; ODone;
   ORead "K" (Ok 2%nat); ODone; ORead "phi" (Ok 1%nat)].
Proof.
  split; [cbn; tauto|]. split; [|vm_compute; reflexivity].
  cbn. repeat split; try tauto; try (intros k e H; discriminate H).
Qed.

(** The hypothesis on input changes is needed: an input change under a held entry is not seen. *)
Example C01_stale_without_invalidation :
  map snd (fst (run (MkState (init_cache (LStr "normal")) (fun _ => Ok 1%nat))
                    [OGet "K" default_args; OWorld (fun _ => Ok 2%nat); OGet "K" default_args]))
  = [ORead "K" (Ok 1%nat); ODone; ORead "K" (Ok 1%nat)].
Proof. vm_compute. reflexivity. Qed.

(** * C02 *)

Theorem C02_level_bound_partial :
  forall (V : Type) (l : lvl) (w : string -> result V) (os : list (op V)),
    known_level (Some l) ->
    history_all no_force_no_lowering (MkState (init_cache l) w) os ->
    level_bounded (s_cache (snd (run (MkState (init_cache l) w) os))).
Proof. intros V. exact level_bound_invariant. Qed.
Print Assumptions C02_level_bound_partial.

Theorem C02_cleaning_restores_bound_partial :
  forall (V : Type) (c : cache V),
    wf c -> (forall k e, stored c k = Some e -> numeric (e_level e)) -> numeric (c_level c) ->
    level_bounded (snd (clean_cache c None)).
Proof. intros V. exact clean_restores_bound. Qed.
Print Assumptions C02_cleaning_restores_bound_partial.

Theorem C02_level_bound_refuted :
  exists (w : string -> result nat) (os : list (op nat)),
    Forall known_op os /\
    Forall (fun o => match o with OGet _ a => a_force a = false | _ => True end) os /\
    ~ level_bounded (s_cache (snd (run (MkState (init_cache (LStr "normal")) w) os))).
Proof. exact level_bound_refuted_lowering. Qed.
Print Assumptions C02_level_bound_refuted.

Theorem C02_level_bound_forced_refuted :
  exists (w : string -> result nat),
    ~ level_bounded (s_cache (snd (run (MkState (init_cache (LStr "normal")) w)
                                       [OGet "_kernel_dist_sample" distance_args]))).
Proof. exact level_bound_refuted_forced. Qed.
Print Assumptions C02_level_bound_forced_refuted.

Example C02_nontrivial :
  let os := [plain_read "a"; OSetLevel (Some (LStr "total")); plain_read "b"; OReset false []] in
  history_all no_force_no_lowering (MkState (init_cache (LStr "light")) (fun _ => Ok 1%nat)) os /\
  history_all no_force_no_lowering (MkState (init_cache (LStr "total")) (fun _ => Ok 1%nat)) [plain_read "a"] /\
  stored (s_cache (snd (run (MkState (init_cache (LStr "total")) (fun _ => Ok 1%nat)) [plain_read "a"]))) "a" <> None.
Proof. cbn. repeat split; try tauto; try discriminate. Qed.

(** * C03 *)

(** [m] is the threshold: a name or a number given, or the current level. *)
Theorem C03_clean_exact :
  forall (V : Type) (c : cache V) (l : option lvl) (m : Z) (k : string),
    wf c -> (forall k e, stored c k = Some e -> numeric (e_level e)) ->
    get_level (c_level c) l = LInt m -> m <> 0 ->
    fst (clean_cache c l) = Ok tt /\
    stored (snd (clean_cache c l)) k =
      match stored c k with
      | Some e => if rank (e_level e) >? m then None else Some e
      | None => None
      end.
Proof. intros V c l m k. exact (clean_cache_stored c l m k). Qed.
Print Assumptions C03_clean_exact.

Theorem C03_clean_none_empties :
  forall (V : Type) (c : cache V) (l : option lvl),
    get_level (c_level c) l = LInt 0 -> clean_cache c l = (Ok tt, with_entries c []).
Proof. intros V. exact clean_cache_none. Qed.
Print Assumptions C03_clean_none_empties.

Example C03_nontrivial :
  let c := MkCache (LInt 2) [("a", Entry (LInt 1) false 1%nat); ("b", Entry (LInt 3) true 2%nat);
                             ("c", Entry (LInt 2) true 3%nat)] in
  wf c /\ (forall k e, stored c k = Some e -> numeric (e_level e)) /\
  get_level (c_level c) None = LInt 2 /\ dkeys (c_entries (snd (clean_cache c None))) = ["a"; "c"].
Proof.
  cbv zeta. split; [|split; [|split; reflexivity]].
  - unfold wf; cbn. repeat constructor; cbn; intuition discriminate.
  - intros k e H. apply dget_In in H. cbn in H.
    destruct H as [H|[H|[H|[]]]]; injection H as <- <-; cbn; eexists; reflexivity.
Qed.

(** * C04 *)

Theorem C04_reset_exact :
  forall (V : Type) (c : cache V) (reset_persisting : bool) (spared : list string) (k : string),
    wf c ->
    stored (reset_cache c reset_persisting spared) k =
      match stored c k with
      | Some e => if smem k spared || (e_persisting e && negb reset_persisting) then Some e else None
      | None => None
      end.
Proof. intros V. exact reset_cache_stored. Qed.
Print Assumptions C04_reset_exact.

Theorem C04_full_reset_empties :
  forall (V : Type) (c : cache V), c_entries (reset_cache c true []) = [].
Proof. reflexivity. Qed.
Print Assumptions C04_full_reset_empties.

Example C04_nontrivial :
  let c := MkCache (LInt 2) [("K", Entry (LInt 1) false 1%nat); ("I", Entry (LInt 2) true 2%nat);
                             ("sample_transform", Entry (LInt 0) false 3%nat)] in
  wf c /\ dkeys (c_entries (reset_cache c false [])) = ["I"] /\
  dkeys (c_entries (reset_cache c true ["sample_transform"])) = ["sample_transform"].
Proof.
  cbv zeta. split; [|split; reflexivity].
  unfold wf; cbn. repeat constructor; cbn; intuition discriminate.
Qed.

(** * C05 *)

Theorem C05_recursive_reset_partial :
  forall (V : Type) (t : tree (cmodule V)),
    all_nodes (fun m => cm_is_cache m = true) t ->
    all_nodes (fun m => c_entries (cm_cache m) = []) (reset true true t).
Proof. intros V. exact reset_recursive_empties. Qed.
Print Assumptions C05_recursive_reset_partial.

Theorem C05_recursive_reset_keeps_persisting_partial :
  forall (V : Type) (p : bool) (t : tree (cmodule V)),
    all_nodes (fun m => cm_is_cache m = true) t ->
    nodes (reset true p t) =
    map (fun m => CModule (cm_is_cache m) (reset_cache (cm_cache m) p [])) (nodes t).
Proof. intros V. exact reset_recursive_nodes. Qed.
Print Assumptions C05_recursive_reset_keeps_persisting_partial.

Theorem C05_nonrecursive_reset_spares_children :
  forall (V : Type) (p : bool) (t : tree (cmodule V)), subtrees (reset false p t) = subtrees t.
Proof. intros V. exact reset_nonrecursive. Qed.
Print Assumptions C05_nonrecursive_reset_spares_children.

Theorem C05_default_reset_refuted :
  exists t : tree (cmodule nat), all_nodes (fun m => cm_is_cache m = true) t /\
    ~ all_nodes (fun m => c_entries (cm_cache m) = []) (reset_default t).
Proof. exact reset_default_refuted. Qed.
Print Assumptions C05_default_reset_refuted.

Theorem C05_plain_module_in_between_refuted :
  exists t : tree (cmodule nat), cm_is_cache (root t) = true /\
    ~ all_nodes (fun m => cm_is_cache m = true -> c_entries (cm_cache m) = []) (reset true true t).
Proof. exact reset_plain_in_between_refuted. Qed.
Print Assumptions C05_plain_module_in_between_refuted.

Example C05_nontrivial :
  let c := MkCache (LInt 2) [("K", Entry (LInt 1) false 1%nat); ("I", Entry (LInt 2) true 2%nat)] in
  let t := Node (CModule true c) [Node (CModule true c) [Node (CModule true c) []]; Node (CModule true c) []] in
  all_nodes (fun m => cm_is_cache m = true) t /\
  map (fun m => dkeys (c_entries (cm_cache m))) (nodes (reset true false t)) = [["I"]; ["I"]; ["I"]; ["I"]] /\
  map (fun m => dkeys (c_entries (cm_cache m))) (nodes (reset true true t)) = [[]; []; []; []] /\
  map (fun m => dkeys (c_entries (cm_cache m))) (nodes (reset false true t)) = [[]; ["K"; "I"]; ["K"; "I"]; ["K"; "I"]].
Proof. cbv zeta. split; [| vm_compute; repeat split]. repeat constructor. Qed.

(** * C06 *)

Theorem C06_remove_list_exact :
  forall (V : Type) (c : cache V) (l : list string) (k : string),
    wf c -> stored (remove_from_cache c (KeyList l)) k = if smem k l then None else stored c k.
Proof. intros V c l k. exact (remove_from_cache_stored c (KeyList l) k). Qed.
Print Assumptions C06_remove_list_exact.

(** A name given as a string is never removed (unless it has one character). *)
Theorem C06_remove_name_refuted :
  forall (V : Type) (c : cache V) (k : string),
    wf c -> String.length k <> 1%nat -> stored (remove_from_cache c (KeyStr k)) k = stored c k.
Proof. intros V. exact remove_string_noop. Qed.
Print Assumptions C06_remove_name_refuted.

(** What a name given as a string removes: the entries named by one of its letters. *)
Theorem C06_remove_name_exactly :
  forall (V : Type) (c : cache V) (name k : string), wf c ->
    stored (remove_from_cache c (KeyStr name)) k =
    match k with
    | String a EmptyString => if existsb (Ascii.eqb a) (list_ascii_of_string name) then None else stored c k
    | _ => stored c k
    end.
Proof. intros V. exact remove_name_exactly. Qed.
Print Assumptions C06_remove_name_exactly.

Theorem C06_remove_name_removes_others_refuted :
  exists (c : cache nat), wf c /\ stored c "C" <> None /\
    stored (remove_from_cache c (KeyStr "Centered")) "C" = None.
Proof. exact remove_by_name_hits_others. Qed.
Print Assumptions C06_remove_name_removes_others_refuted.

Example C06_nontrivial :
  let c := MkCache (LInt 2) [("K", Entry (LInt 1) false 1%nat); ("phi", Entry (LInt 2) true 2%nat)] in
  wf c /\ dkeys (c_entries (remove_from_cache c (KeyList ["phi"]))) = ["K"] /\
  dkeys (c_entries (remove_from_cache c (KeyStr "phi"))) = ["K"; "phi"].
Proof.
  cbv zeta. split; [|split; reflexivity].
  unfold wf; cbn. repeat constructor; cbn; intuition discriminate.
Qed.

(** * C07 *)

Theorem C07_destroy_hit_refuted :
  forall (V : Type) (c : cache V) (k : string) (v : result V) (a : get_args) (e : entry V),
    stored c k = Some e -> a_overwrite a = false -> snd (get c k v (with_destroy a)) = c.
Proof. intros V. exact destroy_hit. Qed.
Print Assumptions C07_destroy_hit_refuted.

Theorem C07_destroy_miss_refuted :
  forall (V : Type) (c : cache V) (k : string) (val : V) (a : get_args),
    wf c -> numeric (c_level c) -> known_name (a_default_level a) -> a_force a = true ->
    String.length k <> 1%nat -> stored c k = None ->
    exists e, stored (snd (get c k (Ok val) (with_destroy a))) k = Some e /\ e_val e = val.
Proof. intros V. exact destroy_miss. Qed.
Print Assumptions C07_destroy_miss_refuted.

(** For every cache, name and value: the option changes neither the result nor what is stored under a name that
    has not exactly one letter. *)
Theorem C07_exactly :
  forall (V : Type) (c : cache V) (k : string) (v : result V) (a : get_args) (x : string),
    wf c -> String.length x <> 1%nat ->
    fst (get c k v (with_destroy a)) = fst (get c k v (without_destroy a)) /\
    stored (snd (get c k v (with_destroy a))) x = stored (snd (get c k v (without_destroy a))) x.
Proof. intros V. exact destroy_long. Qed.
Print Assumptions C07_exactly.

(** The claim holds for names of one letter that are not stored yet. *)
Theorem C07_one_letter_partial :
  forall (V : Type) (c : cache V) (l : ascii) (val : V) (a : get_args), let k := String l EmptyString in
    wf c -> stored c k = None \/ a_overwrite a = true ->
    is_ok (fst (get c k (Ok val) (with_destroy a))) = true ->
    stored (snd (get c k (Ok val) (with_destroy a))) k = None.
Proof. intros V. exact destroy_one. Qed.
Print Assumptions C07_one_letter_partial.

(** The read of the sample distances, as the code performs it. *)
Example C07_nontrivial :
  let c := init_cache (LStr "normal") : cache nat in
  stored (snd (get c "_kernel_dist_sample" (Ok 5%nat) (with_destroy distance_args))) "_kernel_dist_sample"
  = Some (Entry (LInt 4) false 5%nat).
Proof. vm_compute. reflexivity. Qed.

(** * C08 *)

Theorem C08_known_levels_partial :
  forall (V : Type) (c : cache V) (s : string), known_name s ->
    get_level_name (set_level c (Some (LStr s))) = Ok s /\ c_entries (set_level c (Some (LStr s))) = c_entries c.
Proof. intros V. exact known_level_set. Qed.
Print Assumptions C08_known_levels_partial.

(** An unknown name is accepted; afterwards the level cannot be read and every
    computation that is not in the cache raises. *)
Theorem C08_unknown_levels_refuted :
  forall (V : Type) (c : cache V) (s : string), ~ known_name s ->
    let c' := set_level c (Some (LStr s)) in
    c_entries c' = c_entries c /\
    get_level_name c' = Err EKeyError /\
    forall k val a, known_name (a_default_level a) -> stored c k = None ->
      fst (get c' k (Ok val) a) = Err ETypeError.
Proof. intros V. exact unknown_level_accepted. Qed.
Print Assumptions C08_unknown_levels_refuted.

Example C08_nontrivial : known_name "heavy" /\ ~ known_name "Heavy".
Proof. cbn. intuition discriminate. Qed.

(** * C09 *)

Theorem C09_level_change_leaves_transforms :
  forall (c : cache held) (l : option lvl), c_entries (set_level_held c l) = c_entries c.
Proof. exact set_level_held_entries. Qed.
Print Assumptions C09_level_change_leaves_transforms.

Theorem C09_level_propagation_refuted :
  exists (c : cache held) s, known_name s /\ held_at c (c_level c) /\
    let c' := set_level_held c (Some (LStr s)) in ~ held_at c' (c_level c').
Proof. exact level_propagation_refuted. Qed.
Print Assumptions C09_level_propagation_refuted.

(** Exactly when the transforms use the new level: when it is the level there was, or none is held. *)
Theorem C09_exactly_partial :
  forall (c : cache held) (l : option lvl), held_at c (c_level c) ->
  let c' := set_level_held c l in
  held_at c' (c_level c') <->
  c_level c' = c_level c \/ (forall k e t, dget (c_entries c) k = Some e -> e_val e <> HTree t).
Proof. exact level_propagation_exactly. Qed.
Print Assumptions C09_exactly_partial.

Example C09_nontrivial :
  let c := MkCache (LInt 2) [("sample_transform", Entry (LInt 0) false (HTree (LInt 2)))] in
  held_at c (c_level c) /\ c_level (set_level_held c (Some (LStr "light"))) = LInt 1 /\
  c_entries (set_level_held c (Some (LStr "light"))) = [("sample_transform", Entry (LInt 0) false (HTree (LInt 2)))].
Proof.
  split; [|split; reflexivity]. intros k e l'. cbn [c_entries dget c_level]. destruct (String.eqb "sample_transform" k); [|intros H; discriminate H].
  intros H; injection H as <-. cbn. now intros H; injection H as <-.
Qed.

(** * C10 *)

(** On a hierarchy of caching modules without transforms, porting applies the
    function [2^d] times to the tensors of a module at depth [d]. *)
Theorem C10_porting_counts :
  forall (T : Type) (fn : T -> T) (n : nat) (t : tree (pmodule T)),
    (height t <= n)%nat -> all_nodes (fun m => pm_is_cache m = true) t ->
    exists t', apply_fuel n fn t = Ok t' /\
      nodes_depth 0 t' =
      map (fun p : nat * pmodule T =>
             (fst p, PModule (pm_is_cache (snd p))
                       (map (iter (2 ^ fst p) fn) (pm_tensors (snd p))))) (nodes_depth 0 t).
Proof. exact porting_counts. Qed.
Print Assumptions C10_porting_counts.

(** Porting functions that are idempotent (device and type changes) act as if applied once. *)
Theorem C10_idempotent_porting_partial :
  forall (T : Type) (fn : T -> T) (n : nat) (t : tree (pmodule T)),
    (forall x, fn (fn x) = fn x) -> (height t <= n)%nat ->
    apply_fuel n fn t = Ok (ported_once fn t).
Proof. exact idempotent_porting. Qed.
Print Assumptions C10_idempotent_porting_partial.

Example C10_nontrivial :
  let t := Node (PModule true [0%nat]) [Node (PModule true [0%nat]) [Node (PModule true [0%nat]) []]] in
  (height t <= 10)%nat /\ all_nodes (fun m => pm_is_cache m = true) t /\
  apply_fuel 10 S t = Ok (Node (PModule true [1%nat]) [Node (PModule true [2%nat]) [Node (PModule true [4%nat]) []]]) /\
  apply_fuel 10 (fun _ => 7%nat) t = Ok (ported_once (fun _ => 7%nat) t).
Proof. cbv zeta. split; [vm_compute; lia |]. split; [repeat constructor |]. vm_compute. split; reflexivity. Qed.

Theorem C10_porting_once_refuted :
  exists t : tree (pmodule nat), all_nodes (fun m => pm_is_cache m = true) t /\
    apply_fuel 10 S t <> Ok (ported_once S t).
Proof. exact porting_once_refuted. Qed.
Print Assumptions C10_porting_once_refuted.

(** A module that holds a transform tree (with any number of default
    transforms) cannot be ported: the recursion never ends. *)
Theorem C10_porting_transforms_refuted :
  forall (number_of_transforms recursion_limit : nat),
    apply_graph recursion_limit (kernel_graph number_of_transforms) 0 = Err ERuntimeError.
Proof. exact kernel_graph_diverges. Qed.
Print Assumptions C10_porting_transforms_refuted.

(** * C11 *)

Theorem C11_proportional_selection :
  forall (n : Z) (p : Q) (perm : list Z),
    0 <= n -> Permutation perm (range n) -> (0 < p)%Q -> (p <= 1)%Q ->
    exists idx, selection n (proportion p perm) = Ok idx /\
      NoDup idx /\ (forall i, In i idx -> 0 <= i < n) /\
      Z.of_nat (List.length idx) = round_half_even (inject_Z n * p).
Proof. exact selection_prop. Qed.
Print Assumptions C11_proportional_selection.

Theorem C11_whole_proportion :
  forall (n : Z) (perm : list Z), 0 <= n -> Permutation perm (range n) ->
    selection n (proportion 1 perm) = Ok perm.
Proof. exact selection_prop_one. Qed.
Print Assumptions C11_whole_proportion.

Theorem C11_bad_proportion_rejected :
  forall (n : Z) (p : Q) (perm : list Z),
    ~ ((0 < p)%Q /\ (p <= 1)%Q) -> selection n (proportion p perm) = Err EAssertionError.
Proof. exact selection_prop_rejected. Qed.
Print Assumptions C11_bad_proportion_rejected.

Example C11_nontrivial :
  Permutation [2; 0; 3; 1] (range 4) /\ selection 4 (proportion (5 # 8) [2; 0; 3; 1]) = Ok [2; 0].
Proof.
  split; [|vm_compute; reflexivity]. cbn.
  apply (Permutation_trans (l' := [0; 2; 3; 1])); [apply perm_swap|].
  apply perm_skip. apply (Permutation_trans (l' := [2; 1; 3])); [apply perm_skip, perm_swap|apply perm_swap].
Qed.

(** * C12 *)

Theorem C12_selection_reaches_descendants :
  forall (V : Type) (n : Z) (r : request) (idx : list Z) (t : tree (smodule V)),
    all_nodes initialised t -> sm_num (root t) = Some n -> selection n r = Ok idx ->
    fst (stochastic r t) = Ok tt /\
    all_nodes (fun m => sm_idx m = Some idx /\
                 forall k e, stored (sm_cache m) k = Some e -> e_persisting e = true)
      (snd (stochastic r t)).
Proof. exact selection_reaches_descendants. Qed.
Print Assumptions C12_selection_reaches_descendants.

Theorem C12_evaluation_selects_everything :
  forall (V : Type) (n : Z) (t : tree (smodule V)),
    all_nodes initialised t -> sm_num (root t) = Some n ->
    all_nodes (fun m => sm_idx m = Some (range n) /\
                 forall k e, stored (sm_cache m) k = Some e -> e_persisting e = true)
      (train false t).
Proof. intros V. exact train_false_selects. Qed.
Print Assumptions C12_evaluation_selects_everything.

Theorem C12_uninitialised_in_between_refuted :
  exists t : tree (smodule nat), sm_num (root t) = Some 2 /\
    ~ all_nodes (fun m => sm_num m <> None -> sm_idx m = Some [1])
        (snd (stochastic (idx_request [1]) t)).
Proof. exact propagation_blocked. Qed.
Print Assumptions C12_uninitialised_in_between_refuted.

Example C12_nontrivial :
  let c := MkCache (LInt 2) [("K", Entry (LInt 1) false 1%nat); ("I", Entry (LInt 2) true 2%nat)] in
  let t := Node (SModule KStochastic (Some 3) (Some [1]) c)
             [Node (SModule KStochastic (Some 3) None c) []; Node (SModule KStochastic (Some 3) (Some [0]) c) []] in
  all_nodes initialised t /\ map sm_idx (nodes (snd (stochastic (idx_request [2; 0]) t))) =
  [Some [2; 0]; Some [2; 0]; Some [2; 0]].
Proof.
  cbv zeta. split; [|reflexivity].
  assert (Hwf : NoDup ["K"; "I"]) by (repeat constructor; cbn; intuition discriminate).
  cbn. unfold initialised, wf. cbn. repeat split; try discriminate; exact Hwf.
Qed.

(** * C13 *)

(** A rejected request changes no index and no descendant; the module's cache
    only loses entries, which by C01 does not change any value read. *)
Theorem C13_rejected_request_partial :
  forall (V : Type) (n : Z) (r : request) (e : exn) (m : smodule V) (ts : list (tree (smodule V))),
    sm_num m = Some n -> selection n r = Err e ->
    stochastic r (Node m ts) =
    (Err e, Node (SModule (sm_kind m) (sm_num m) (sm_idx m) (reset_cache (sm_cache m) false [])) ts).
Proof. intros V. exact stochastic_rejected. Qed.
Print Assumptions C13_rejected_request_partial.

(** An index beyond the sample is accepted, by every module of every size. *)
Theorem C13_invalid_indices_refuted :
  forall (m : smodule nat) (ts : list (tree (smodule nat))) (n : Z), sm_num m = Some n ->
    fst (stochastic (idx_request [n]) (Node m ts)) = Ok tt /\
    sm_idx (root (snd (stochastic (idx_request [n]) (Node m ts)))) = Some [n].
Proof. exact invalid_indices_accepted. Qed.
Print Assumptions C13_invalid_indices_refuted.
(** Indeed every list of indices is, negative, repeated or empty, and is kept as it was given. *)
Theorem C13_any_indices_refuted :
  forall (V : Type) (m : smodule V) (ts : list (tree (smodule V))) (n : Z) (l : list Z), sm_num m = Some n ->
    fst (stochastic (idx_request l) (Node m ts)) = Ok tt /\
    sm_idx (root (snd (stochastic (idx_request l) (Node m ts)))) = Some l.
Proof. intros V. exact any_indices_accepted. Qed.
Print Assumptions C13_any_indices_refuted.

Example C13_nontrivial :
  selection 5 (Request (Some [1]) (Some (1 # 2)%Q) []) = Err EAssertionError /\
  selection 5 (proportion (3 # 2) []) = Err EAssertionError.
Proof. split; vm_compute; reflexivity. Qed.

(** * C81 *)

Theorem C81_nonempty_selection_partial :
  forall (n : Z) (p : Q) (perm : list Z),
    0 <= n -> Permutation perm (range n) -> (p <= 1)%Q -> (1 # 2 < inject_Z n * p)%Q ->
    exists idx, selection n (proportion p perm) = Ok idx /\ idx <> [].
Proof. exact nonempty_selection. Qed.
Print Assumptions C81_nonempty_selection_partial.

Example C81_nontrivial : (1 # 2 < inject_Z 3 * (1 # 4))%Q /\ Permutation [0; 1; 2] (range 3).
Proof. split; [reflexivity|apply Permutation_refl]. Qed.

(** A proportion can select no point at all. *)
Theorem C81_nonempty_selection_refuted :
  exists n p perm, 0 < n /\ (0 < p)%Q /\ (p <= 1)%Q /\ Permutation perm (range n) /\
    selection n (proportion p perm) = Ok [].
Proof. exact empty_selection_refuted. Qed.
Print Assumptions C81_nonempty_selection_refuted.
