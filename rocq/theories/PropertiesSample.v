(** Property theorems C14-C20 and C82-C85: samples and the kernel object. *)
From Coq Require Import QArith.
From Verif Require Import Base BaseProofs Cache CacheSpec CacheProofs Tree ModuleTree Sample SampleSpec SampleProofs KernelState KernelSpec KernelProofs KernelRefutations UpdateProofs.
Open Scope string_scope.
Open Scope Z_scope.

(** * C14 *)

(** Each addressed row takes the last value given for it, the others stay. *)
Theorem C14_update_writes_addressed_rows :
  forall (F V : Type) (s s' : sstate F V) (values : tensor F) (idx : list Z),
    t_rows (ss_sample s) <> [] -> t_cols (ss_sample s) <> 0%nat ->
    update_sample s values (Some idx) = (Ok tt, s') ->
    forall p, row (ss_sample s') p =
      match row (ss_sample s) p with
      | None => None
      | Some old =>
          match last_given (nrows (ss_sample s)) idx (t_rows values) p with
          | Some v => Some (expand (t_cols (ss_sample s)) v)
          | None => Some old
          end
      end.
Proof. intros F V s s' values idx Hr Hc. exact (update_sample_rows s s' values idx (filled s Hr Hc)). Qed.
Print Assumptions C14_update_writes_addressed_rows.

(** The shape, the dimensions, the selection and the persisting entries stay; the
    other cached values are dropped. *)
Theorem C14_update_frame :
  forall (F V : Type) (s s' : sstate F V) (values : tensor F) (idx : option (list Z)),
    t_rows (ss_sample s) <> [] -> t_cols (ss_sample s) <> 0%nat -> wf (ss_cache s) ->
    update_sample s values idx = (Ok tt, s') ->
    t_cols (ss_sample s') = t_cols (ss_sample s) /\ nrows (ss_sample s') = nrows (ss_sample s) /\
    ss_num s' = ss_num s /\ ss_dim s' = ss_dim s /\ ss_idx s' = ss_idx s /\
    ss_trainable s' = ss_trainable s /\ c_level (ss_cache s') = c_level (ss_cache s) /\
    forall k, stored (ss_cache s') k =
      match stored (ss_cache s) k with
      | Some e => if e_persisting e then Some e else None
      | None => None
      end.
Proof. intros F V s s' values idx Hr Hc. exact (update_sample_frame s s' values idx (filled s Hr Hc)). Qed.
Print Assumptions C14_update_frame.

Theorem C14_wrong_count_rejected :
  forall (F V : Type) (s : sstate F V) (values : tensor F) (idx : list Z),
    t_rows (ss_sample s) <> [] -> t_cols (ss_sample s) <> 0%nat -> List.length idx <> List.length (t_rows values) ->
    update_sample s values (Some idx) = (Err EAssertionError, s).
Proof. intros F V s values idx Hr Hc. exact (update_sample_count_rejected s values idx (filled s Hr Hc)). Qed.
Print Assumptions C14_wrong_count_rejected.

(** Well-addressed values are accepted. *)
Theorem C14_valid_update_accepted :
  forall (F V : Type) (s : sstate F V) (values : tensor F) (idx : list Z),
    t_rows (ss_sample s) <> [] -> t_cols (ss_sample s) <> 0%nat -> List.length idx = List.length (t_rows values) ->
    Forall (fun i => 0 <= i < nrows (ss_sample s)) idx ->
    t_cols values = t_cols (ss_sample s) -> (ss_trainable s = false \/ ss_grad s <> None) ->
    fst (update_sample s values (Some idx)) = Ok tt.
Proof. intros F V s values idx Hr Hc. exact (update_sample_ok s values idx (filled s Hr Hc)). Qed.
Print Assumptions C14_valid_update_accepted.

(** A sample without points or without columns holds no value: every update is
    accepted, whatever its size, and changes nothing. *)
Theorem C14_empty_sample :
  forall (F V : Type) (s : sstate F V) (values : tensor F) (idx : option (list Z)),
    t_rows (ss_sample s) = [] \/ t_cols (ss_sample s) = 0%nat ->
    update_sample s values idx = (Ok tt, s).
Proof. intros F V. exact update_sample_empty. Qed.
Print Assumptions C14_empty_sample.

Example C14_nontrivial :
  let s := snd (new_sample (V := nat) toy_orth (LStr "normal") (DataSample (column [10; 11; 12; 13])) None None false full_request) in
  let '(r, s') := update_sample s (column [1; 2; 3]) (Some [1; -1; 1]) in
  r = Ok tt /\ t_rows (ss_sample s') = [[10]; [3]; [12]; [2]].
Proof. vm_compute. split; reflexivity. Qed.

(** * C15 *)

Theorem C15_failed_update_refuted :
  let s := toy_kernel "normal" true (Some 0) [0; 1] in
  let os := [KReadK; KSample (SUpdate (column [0; 5]) None)] in
  map snd (fst (toy_run true s os)) =
    [OutK (Ok [[0; 1]; [1; 0]]); OutUnit (Err EAttributeError)] /\
  let s' := snd (toy_run true s os) in
  t_rows (ss_sample (k_obj s')) = [[0]; [5]] /\
  fst (toy_step true s' KReadK) = OutK (Ok [[0; 1]; [1; 0]]) /\
  toy_true_K true s' = Ok [[0; 5]; [5; 0]].
Proof. exact failed_update_stale. Qed.
Print Assumptions C15_failed_update_refuted.

(** In every such state: the update raises, the sample is the updated one, and a kernel matrix that was
    read before is returned as it was. *)
Theorem C15_every_refuted :
  forall (F Dm Sg Km : Type) transform no_transform (dist : list (list F) -> list (list F) -> Dm)
         (heur : Dm -> Sg) one (kern : Sg -> Dm -> result Km) dkey orth (s : kstate F Dm Sg Km) values idx t,
    ss_trainable (k_obj s) = true -> ss_grad (k_obj s) = None -> empty_sample (k_obj s) = false ->
    let rows := match idx with Some l => l | None => range (match ss_num (k_obj s) with Some n => n | None => 0 end) end in
    List.length rows = List.length (t_rows values) -> write_rows (ss_sample (k_obj s)) rows values = Ok t ->
    let step := kstep transform no_transform dist heur one kern dkey orth in
    exists s', step s (KSample (SUpdate values idx)) = (OutUnit (Err EAttributeError), s') /\
      ss_sample (k_obj s') = t /\ k_sigma s' = k_sigma s /\
      forall e m, stored (k_cache s) "K" = Some e -> e_val e = VK m ->
        fst (step s KReadK) = OutK (Ok m) /\ fst (step s' KReadK) = OutK (Ok m).
Proof. intros F Dm Sg Km. exact failed_update_every. Qed.
Print Assumptions C15_every_refuted.

(** For every other state, a rejected update changes nothing at all. *)
Theorem C15_rejected_update_changes_nothing_partial :
  forall (F Dm Sg Km : Type) transform no_transform (dist : list (list F) -> list (list F) -> Dm)
         (heur : Dm -> Sg) one (kern : Sg -> Dm -> result Km) dkey orth s values idx e,
    ss_trainable (k_obj s) = false \/ ss_grad (k_obj s) <> None ->
    fst (kstep transform no_transform dist heur one kern dkey orth s (KSample (SUpdate values idx))) = OutUnit (Err e) ->
    snd (kstep transform no_transform dist heur one kern dkey orth s (KSample (SUpdate values idx))) = s.
Proof. intros F Dm Sg Km. exact rejected_update. Qed.
Print Assumptions C15_rejected_update_changes_nothing_partial.

Example C15_nontrivial :
  let s := snd (toy_run true (toy_kernel "normal" false (Some 0) [0; 1]) [KReadK]) in
  fst (toy_step true s (KSample (SUpdate (column [4]) (Some [7])))) = OutUnit (Err EIndexError).
Proof. vm_compute. reflexivity. Qed.

(** * C16 *)

(** A float32 tensor or parameter is shared: every later write of the caller is seen. *)
Theorem C16_shared_sample_refuted :
  forall (F : Type) (h : @heap F) (p : passed) v,
    match p with POther _ => False | _ => True end -> (passed_addr p < List.length h)%nat ->
    let '(m, h1) := module_storage h p in load (store h1 (passed_addr p) v) m = v.
Proof. intros F. exact shared_sample_follows. Qed.
Print Assumptions C16_shared_sample_refuted.

(** Anything that has to be converted is copied: no later write is seen. *)
Theorem C16_converted_sample_isolated_partial :
  forall (F : Type) (h : @heap F) a ws,
    (a < List.length h)%nat ->
    let '(m, h1) := module_storage h (POther a) in
    load (fold_left (fun h v => store h a v) ws h1) m = load h a.
Proof. intros F. exact copied_sample_isolated. Qed.
Print Assumptions C16_converted_sample_isolated_partial.

Example C16_nontrivial :
  let h := [[[1]; [2]]; [[3]]] in
  (let '(m, h1) := module_storage h (PFloatTensor 0) in load (store h1 0%nat [[9]]) m = [[9]]) /\
  (let '(m, h1) := module_storage h (POther 0) in load (store h1 0%nat [[9]]) m = [[1]; [2]]).
Proof. vm_compute. split; reflexivity. Qed.

(** * C17 *)

Theorem C17_dimensions_agree :
  forall (F V : Type) (orth : nat -> nat -> list (list F)) level a num dim tr r (os : list (sop F)),
    good_orth orth -> good_arg a -> Forall good_op os ->
    dims_agree (srun orth (snd (@new_sample F V orth level a num dim tr r)) os).
Proof. intros F V. exact dims_consistent. Qed.
Print Assumptions C17_dimensions_agree.

Theorem C17_dimensions_not_reassigned :
  forall (F V : Type) (orth : nat -> nat -> list (list F)) (s : sstate F V) n d,
    (ss_num s <> None -> set_num orth s n = (Err EAssertionError, s)) /\
    (ss_dim s <> None -> set_dim orth s d = (Err EAssertionError, s)).
Proof. intros F V. exact dims_not_reassigned. Qed.
Print Assumptions C17_dimensions_not_reassigned.

Example C17_nontrivial :
  good_orth toy_orth /\
  let s := srun toy_orth (snd (@new_sample Z nat toy_orth (LStr "normal") NoSample None (Some 1) false full_request))
             [SSetNum 3; SUpdate (column [4; 5; 6]) None; SInit (DataSample (column [1; 2])) full_request] in
  empty_sample s = false /\ ss_num s = Some 2 /\ ss_dim s = Some 1.
Proof.
  split; [|vm_compute; repeat split]. intros n d. split; [apply repeat_length|].
  intros x Hx. apply repeat_spec in Hx. subst x. apply repeat_length.
Qed.

(** * C18 *)

(** Every reading of every history shows the kernel matrix (the bandwidth) of the
    points selected at that moment. *)
Theorem C18_kernel_matrix_reflects_state :
  forall (F Dm Sg Km : Type) transform no_transform (dist : list (list F) -> list (list F) -> Dm)
         (heur : Dm -> Sg) one (kern : Sg -> Dm -> result Km) dkey orth,
    dkey = "_kernel_dist_sample" \/ dkey = "_kernel_square_dist_sample" ->
    forall level a num dim tr r sg os,
    known_level (Some level) ->
    safe_history transform no_transform dist heur kern known_level one dkey orth
                 (snd (new_kernel orth level a num dim tr r sg)) os ->
    Forall (reading_is_true transform no_transform dist heur kern)
           (fst (krun transform no_transform dist heur one kern dkey orth
                      (snd (new_kernel orth level a num dim tr r sg)) os)).
Proof. intros F Dm Sg Km. exact reads_true. Qed.
Print Assumptions C18_kernel_matrix_reflects_state.

(** The points read are those of the sample that the selected indices address,
    in the order of the indices (negative ones count from the end). *)
Theorem C18_selected_points :
  forall (F Dm Sg Km : Type) (s : kstate F Dm Sg Km) (points : list (list F)),
    current_rows s = Ok points <->
    nrows (ss_sample (k_obj s)) * ncols (ss_sample (k_obj s)) <> 0 /\
    exists idx, ss_idx (k_obj s) = Some idx /\
      Forall2 (fun i x => exists p, addresses (nrows (ss_sample (k_obj s))) p i /\
                                    row (ss_sample (k_obj s)) p = Some x) idx points.
Proof. intros F Dm Sg Km. exact current_rows_iff. Qed.
Print Assumptions C18_selected_points.

Example C18_nontrivial :
  let s := toy_kernel "normal" false None [0; 1; 3] in
  let os := [KReadK; KSetSigma (Some 2); KReadK; KSample (SUpdate (column [7]) (Some [1])); KReadK;
             KSample (SSelect (idx_request [2; 1])); KReadK; KSetLevel (Some (LStr "none")); KReadk;
             KReset true; KReadSigma] in
  safe_history toy_transform true toy_dist toy_heur toy_kern known_level 1 "_kernel_dist_sample" toy_orth s os /\
  map snd (fst (toy_run true s os)) =
    [OutK (Ok [[-12; -11; -9]; [-11; -12; -10]; [-9; -10; -12]]); OutUnit (Ok tt);
     OutK (Ok [[-2; -1; 1]; [-1; -2; 0]; [1; 0; -2]]); OutUnit (Ok tt);
     OutK (Ok [[-2; 5; 1]; [5; -2; 2]; [1; 2; -2]]); OutUnit (Ok tt);
     OutK (Ok [[-2; 2]; [2; -2]]); OutUnit (Ok tt); OutK (Ok [[-2; 2]; [2; -2]]);
     OutUnit (Ok tt); OutSigma (Ok 2)].
Proof.
  split; [|vm_compute; reflexivity].
  repeat (split; [vm_compute; tauto|]). exact I.
Qed.

(** * C19 *)

(** At any level from light on, with or without transforms. *)
Theorem C19_bandwidth_change_reuses_distances_partial :
  forall (F Dm Sg Km : Type) transform no_transform (dist : list (list F) -> list (list F) -> Dm)
         (heur : Dm -> Sg) one (kern : Sg -> Dm -> result Km) dkey orth,
    dkey = "_kernel_dist_sample" \/ dkey = "_kernel_square_dist_sample" ->
    forall level a num dim tr r sg os x,
    at_least_light (Some level) ->
    let s0 := snd (new_kernel orth level a num dim tr r sg) in
    safe_history transform no_transform dist heur kern at_least_light one dkey orth s0 os ->
    let s := snd (krun transform no_transform dist heur one kern dkey orth s0 os) in
    dist_held dkey s ->
    let s1 := snd (kstep transform no_transform dist heur one kern dkey orth s (KSetSigma (Some x))) in
    stored (k_cache s1) "K" = None /\
    stored (k_cache s1) dkey = stored (k_cache s) dkey /\
    k_ndist (snd (kstep transform no_transform dist heur one kern dkey orth s1 KReadK)) = k_ndist s /\
    fst (kstep transform no_transform dist heur one kern dkey orth s1 KReadK) =
      OutK (true_K transform no_transform dist heur kern s1).
Proof. intros F Dm Sg Km. exact sigma_change_reuses. Qed.
Print Assumptions C19_bandwidth_change_reuses_distances_partial.

(** Without cache and with a sample transform the distances are recomputed. *)
Theorem C19_no_cache_refuted :
  let s1 := snd (toy_run false (toy_kernel "none" false None [0; 1]) [KReadSigma]) in
  dist_held "_kernel_dist_sample" s1 /\
  let s2 := snd (toy_step false s1 (KSetSigma (Some 3))) in
  dist_held "_kernel_dist_sample" s2 /\
  k_ndist (snd (toy_step false s2 KReadK)) = S (k_ndist s1).
Proof. exact sigma_change_recomputes. Qed.
Print Assumptions C19_no_cache_refuted.

Example C19_nontrivial :
  let os := [KReadK; KSample (SSelect (idx_request [2; 1])); KReadK] in
  let s0 := toy_kernel "light" false (Some 1) [0; 1; 3] in
  at_least_light (Some (LStr "light")) /\
  safe_history toy_transform false toy_dist toy_heur toy_kern at_least_light 1 "_kernel_dist_sample" toy_orth s0 os /\
  dist_held "_kernel_dist_sample" (snd (toy_run false s0 os)) /\
  k_ndist (snd (toy_run false s0 os)) = 2%nat.
Proof.
  split; [cbn; tauto|]. split; [repeat (split; [vm_compute; tauto|]); exact I|].
  split; [eexists; vm_compute; reflexivity|vm_compute; reflexivity].
Qed.

(** * C20 *)

(** The first reading gives the heuristic on the points selected then. *)
Theorem C20_first_reading_partial :
  forall (F Dm Sg Km : Type) transform no_transform (dist : list (list F) -> list (list F) -> Dm)
         (heur : Dm -> Sg) one (kern : Sg -> Dm -> result Km) dkey orth,
    dkey = "_kernel_dist_sample" \/ dkey = "_kernel_square_dist_sample" ->
    forall level a num dim tr r os,
    known_level (Some level) -> Forall needs_no_sigma os ->
    let s0 := snd (new_kernel orth level a num dim tr r None) in
    safe_history transform no_transform dist heur kern known_level one dkey orth s0 os ->
    let s := snd (krun transform no_transform dist heur one kern dkey orth s0 os) in
    fst (kstep transform no_transform dist heur one kern dkey orth s KReadSigma) =
    OutSigma (bind (true_dist transform no_transform dist s) (fun d => Ok (heur d))).
Proof. intros F Dm Sg Km. exact first_sigma. Qed.
Print Assumptions C20_first_reading_partial.

(** From then on it never changes by itself, whatever happens to the sample. *)
Theorem C20_bandwidth_frozen :
  forall (F Dm Sg Km : Type) transform no_transform (dist : list (list F) -> list (list F) -> Dm)
         (heur : Dm -> Sg) one (kern : Sg -> Dm -> result Km) dkey orth os s x,
    Forall (fun o => ~ assigns_sigma o) os -> k_sigma s = Some x ->
    k_sigma (snd (krun transform no_transform dist heur one kern dkey orth s os)) = Some x.
Proof. intros F Dm Sg Km. exact sigma_frozen. Qed.
Print Assumptions C20_bandwidth_frozen.

Theorem C20_default_bandwidth_refuted :
  map snd (fst (toy_run true (toy_kernel "normal" false None [0; 1])
    [KReadSigma; KSample (SUpdate (column [0; 5]) None); KReadSigma])) =
  [OutSigma (Ok 2); OutUnit (Ok tt); OutSigma (Ok 2)] /\
  map snd (fst (toy_run true (toy_kernel "normal" false None [0; 1])
    [KSample (SUpdate (column [0; 5]) None); KReadSigma])) =
  [OutUnit (Ok tt); OutSigma (Ok 10)].
Proof. exact frozen_after_update. Qed.
Print Assumptions C20_default_bandwidth_refuted.

Example C20_nontrivial :
  let os := [KSample (SUpdate (column [7]) (Some [1])); KSample (SSelect (idx_request [2; 1]))] in
  let s0 := toy_kernel "normal" false None [0; 1; 3] in
  Forall needs_no_sigma os /\
  safe_history toy_transform true toy_dist toy_heur toy_kern known_level 1 "_kernel_dist_sample" toy_orth s0 os /\
  fst (toy_step true (snd (toy_run true s0 os)) KReadSigma) = OutSigma (Ok 8).
Proof.
  split; [repeat constructor|]. split; [|vm_compute; reflexivity].
  repeat (split; [vm_compute; tauto|]); exact I.
Qed.

(** * C82 *)

(** The gradient held by the sample never changes at an update, for any state. *)
Theorem C82_gradient_untouched :
  forall (F V : Type) (s : sstate F V) values idx,
    ss_grad (snd (update_sample s values idx)) = ss_grad s.
Proof. intros F V. exact update_sample_grad. Qed.
Print Assumptions C82_gradient_untouched.
(** So what the documentation announces holds exactly for gradients that are zero already. *)
Theorem C82_exactly :
  forall (F V : Type) (s : sstate F V) values idx (zero : list F -> Prop) g p v,
    ss_grad s = Some g -> row g p = Some v ->
    ((exists g', ss_grad (snd (update_sample s values idx)) = Some g' /\ exists v', row g' p = Some v' /\ zero v') <-> zero v).
Proof.
  intros F V s values idx zero g p v Hg Hv. rewrite update_sample_grad. split.
  - intros (g' & H1 & v' & H2 & H3). rewrite Hg in H1. injection H1 as <-. rewrite Hv in H2. injection H2 as <-. exact H3.
  - intros H. exists g. split; [exact Hg |]. exists v. now split.
Qed.
Print Assumptions C82_exactly.

Theorem C82_gradient_cleared_refuted :
  let s := deposit_grad (snd (new_sample (V := nat) toy_orth (LStr "normal") (DataSample (column [0; 1])) None None true full_request))
             (column [7; 8]) in
  update_sample s (column [5]) (Some [1]) <> (Err EAttributeError, s) /\
  fst (update_sample s (column [5]) (Some [1])) = Ok tt /\
  t_rows (ss_sample (snd (update_sample s (column [5]) (Some [1])))) = [[0]; [5]] /\
  ss_grad (snd (update_sample s (column [5]) (Some [1]))) = Some (column [7; 8]).
Proof. exact gradient_kept. Qed.
Print Assumptions C82_gradient_cleared_refuted.

(** * C83 *)

Theorem C83_rejected_bandwidth_refuted :
  map snd (fst (toy_run true (toy_kernel "normal" false None [0; 5])
    [KSetSigma None; KReadSigma])) = [OutUnit (Err ETypeError); OutSigma (Ok 1)].
Proof. exact sigma_none_placeholder. Qed.
Print Assumptions C83_rejected_bandwidth_refuted.

(** In every state: the bandwidth that was in force stays, and where there was none the placeholder becomes the
    bandwidth, whatever the heuristic would have given. *)
Theorem C83_exactly :
  forall (F Dm Sg Km : Type) (transform : list (list F) -> list (list F)) (nt : bool) (dist : list (list F) -> list (list F) -> Dm)
         (heur : Dm -> Sg) (one : Sg) (kern : Sg -> Dm -> result Km) (dkey : string) (orth : nat -> nat -> list (list F))
         (s : kstate F Dm Sg Km),
    let step := kstep transform nt dist heur one kern dkey orth in
    fst (step s (KSetSigma None)) = OutUnit (Err ETypeError) /\
    fst (step (snd (step s (KSetSigma None))) KReadSigma) = OutSigma (Ok match k_sigma s with Some x => x | None => one end).
Proof. intros F Dm Sg Km transform nt dist heur one kern dkey orth s. split; reflexivity. Qed.
Print Assumptions C83_exactly.

(** So a kernel whose bandwidth was given or read before is left as it was: same bandwidth, sample, selection, and
    same kernel matrix to be shown. *)
Theorem C83_defined_partial :
  forall (F Dm Sg Km : Type) (transform : list (list F) -> list (list F)) (nt : bool) (dist : list (list F) -> list (list F) -> Dm)
         (heur : Dm -> Sg) (one : Sg) (kern : Sg -> Dm -> result Km) (dkey : string) (orth : nat -> nat -> list (list F))
         (s : kstate F Dm Sg Km) (x : Sg),
    k_sigma s = Some x ->
    let s' := snd (kstep transform nt dist heur one kern dkey orth s (KSetSigma None)) in
    k_sigma s' = Some x /\ ss_sample (k_obj s') = ss_sample (k_obj s) /\ ss_idx (k_obj s') = ss_idx (k_obj s) /\
    true_K transform nt dist heur kern s' = true_K transform nt dist heur kern s.
Proof.
  intros F Dm Sg Km transform nt dist heur one kern dkey orth s x H. cbn. rewrite H.
  repeat split. unfold true_K, true_sigma. cbn. rewrite H. reflexivity.
Qed.
Print Assumptions C83_defined_partial.

Example C83_nontrivial :
  map snd (fst (toy_run true (toy_kernel "normal" false (Some 4) [0; 5]) [KReadK; KSetSigma None; KReadSigma; KReadK])) =
    [OutK (Ok [[-4; 1]; [1; -4]]); OutUnit (Err ETypeError); OutSigma (Ok 4); OutK (Ok [[-4; 1]; [1; -4]])] /\
  map snd (fst (toy_run true (toy_kernel "normal" false None [0; 5]) [KReadSigma; KSetSigma None; KReadSigma])) =
    [OutSigma (Ok 10); OutUnit (Err ETypeError); OutSigma (Ok 10)].
Proof. vm_compute. split; reflexivity. Qed.

(** * C84 *)

Theorem C84_rejected_initialisation_refuted :
  map snd (fst (toy_run true (toy_kernel "normal" false (Some 0) [0; 1; 2])
    [KSample (SInit (DataSample (column [7])) (Request None (Some (2 # 1)) [])); KReadK])) =
  [OutUnit (Err EAssertionError); OutK (Err EIndexError)].
Proof. exact failed_init_stale_indices. Qed.
Print Assumptions C84_rejected_initialisation_refuted.

(** In every state: the rejected sample replaces the former one, whose selection stays. *)
Theorem C84_exactly :
  forall (F V : Type) (orth : nat -> nat -> list (list F)) (s : sstate F V) (t : tensor F) (r : request) (e : exn),
    selection (nrows t) r = Err e ->
    let '(res, s') := init_sample orth s (DataSample t) r in
    res = Err e /\ ss_sample s' = t /\ ss_num s' = Some (nrows t) /\ ss_dim s' = Some (ncols t) /\ ss_idx s' = ss_idx s.
Proof. intros F V orth s t r e H. cbn. unfold select_idx. cbn. rewrite H. cbn. repeat split. Qed.
Print Assumptions C84_exactly.

(** The current points can still be read exactly when the former selection fits the rejected sample. *)
Theorem C84_readable_partial :
  forall (F V : Type) (orth : nat -> nat -> list (list F)) (s : sstate F V) (t : tensor F) (r : request) (e : exn) (idx : list Z),
    selection (nrows t) r = Err e -> ss_idx s = Some idx ->
    let s' := snd (init_sample orth s (DataSample t) r) in
    ss_idx s' = Some idx /\
    (is_ok (select (t_rows (ss_sample s')) idx) = true <-> forall i, In i idx -> - nrows t <= i < nrows t).
Proof.
  intros F V orth s t r e idx H Hi. cbn. unfold select_idx. cbn. rewrite H. cbn. split; [exact Hi |].
  exact (select_readable _ (t_rows t) idx).
Qed.
Print Assumptions C84_readable_partial.

Example C84_nontrivial :
  let bad := Request None (Some (2 # 1)) [] in
  selection 2 bad = Err EAssertionError /\
  map snd (fst (toy_run true (toy_kernel "normal" false (Some 0) [0; 1])
    [KSample (SInit (DataSample (column [7; 9; 4])) bad); KReadK])) =
  [OutUnit (Err EAssertionError); OutK (Ok [[0; 2]; [2; 0]])].
Proof. vm_compute. split; reflexivity. Qed.

(** * C85 *)

Theorem C85_number_alone_refuted :
  forall (F V : Type) (orth : nat -> nat -> list (list F)) level n tr r,
    fst (@new_sample F V orth level NoSample (Some n) None tr r) = Err ENotInitialized.
Proof. exact number_alone_rejected. Qed.
Print Assumptions C85_number_alone_refuted.

Theorem C85_dimension_alone_partial :
  forall (F V : Type) (orth : nat -> nat -> list (list F)) level d n tr r, 0 <= d -> 0 <= n ->
    let '(res, s) := @new_sample F V orth level NoSample None (Some d) tr r in
    res = Ok tt /\ empty_sample s = true /\
    let '(res2, s2) := set_num orth s n in
    res2 = Ok tt /\ ss_num s2 = Some n /\ ss_dim s2 = Some d /\
    t_rows (ss_sample s2) = orth (Z.to_nat n) (Z.to_nat d) /\ ss_idx s2 = Some (range n).
Proof. exact dimension_alone_accepted. Qed.
Print Assumptions C85_dimension_alone_partial.

Example C85_nontrivial :
  let '(res, s) := @new_sample Z nat toy_orth (LStr "normal") NoSample None (Some 2) false full_request in
  res = Ok tt /\ t_rows (ss_sample (snd (set_num toy_orth s 3))) = [[0; 0]; [0; 0]; [0; 0]] /\
  ss_idx (snd (set_num toy_orth s 3)) = Some [0; 1; 2].
Proof. vm_compute. repeat split. Qed.
