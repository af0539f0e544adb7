(** Property theorems C23, C24, C25, C31: transforms. *)
From Verif Require Import Base Cache CacheSpec Beautify BeautifySpec BeautifyProofs TransformTree TransformSpec
  TransformRefutations.
Open Scope string_scope.
Open Scope Z_scope.

(** * C23 *)

(** Every evaluation of a tree of transforms returns what the chain gives for the
    contents of the objects at that time, along every history in which objects of
    which a value is kept are left alone. *)
Theorem C23_values_partial :
  forall (V D : Type) (num : numerics V D) (explicit : bool) (req : list treq) (level : lvl) (heap : nat -> D)
         (s : tstate V D) (os : list (top V D)),
    documented_level (Some level) -> init_tree req level heap = Ok s ->
    tadmissible_history num explicit s os ->
    requested [] (Some req) = Ok (t_default s) /\
    Forall (output_is_right num explicit (t_default s)) (fst (trun num explicit s os)).
Proof. exact @tree_run. Qed.
Print Assumptions C23_values_partial.

(** At the two lowest levels objects may be modified in place and freed at will, as
    long as evaluations return. *)
Theorem C23_any_object_light_partial :
  forall (V D : Type) (num : numerics V D) (explicit : bool) (req : list treq) (level : lvl) (heap : nat -> D)
         (s : tstate V D) (os : list (top V D)),
    In level [LStr "none"; LStr "light"; LInt 0; LInt 1] -> init_tree req level heap = Ok s ->
    Forall light_op os -> Forall (fun e => succeeded (snd e)) (fst (trun num explicit s os)) ->
    Forall (output_is_right num explicit (t_default s)) (fst (trun num explicit s os)).
Proof. exact @tree_light_run. Qed.
Print Assumptions C23_any_object_light_partial.

(** At the default level an object modified in place keeps its old results. *)
Theorem C23_modified_object_refuted :
  forall (V D : Type) (num : numerics V D) (f : D -> V) (h : nat -> D) (d' : D) (s : tstate V D),
    init_tree [] (LStr "normal") h = Ok s -> base_oos num = (fun d => Ok (f d)) ->
    map snd (fst (trun num true s [TApply (Some 0%nat) None None; THeap (after_change d' h);
                                   TApply (Some 0%nat) None None])) =
    [TVal (Ok (f (h 0%nat))); TDone; TVal (Ok (f (h 0%nat)))].
Proof. exact @in_place_plain. Qed.
Print Assumptions C23_modified_object_refuted.

Theorem C23_modified_object_centered_refuted :
  forall (V D : Type) (num : numerics V D) (f : D -> V) (h : nat -> D) (d' : D) (m : V) (s : tstate V D),
    init_tree [RName "center"] (LStr "normal") h = Ok s ->
    base_oos num = (fun d => Ok (f d)) -> base_sample num = Ok m ->
    map snd (fst (trun num true s [TApply (Some 0%nat) None None; THeap (after_change d' h);
                                   TApply (Some 0%nat) None None])) =
    [TVal (Ok (eapp num MeanCenter (f (h 0%nat)) (estat num MeanCenter false m))); TDone;
     TVal (Ok (eapp num MeanCenter (f (h 0%nat)) (estat num MeanCenter false m)))].
Proof. exact @in_place_centered. Qed.
Print Assumptions C23_modified_object_centered_refuted.

Theorem C23_modified_object_kernel_refuted :
  forall (V D : Type) (num : numerics V D) (g : D -> V) (h : nat -> D) (d' : D) (s : tstate V D),
    init_tree [] (LStr "normal") h = Ok s -> base_k num = (fun d _ => Ok (g d)) ->
    map snd (fst (trun num false s [TApply (Some 0%nat) None None; THeap (after_change d' h);
                                    TApply (Some 0%nat) None None; TApply None (Some 0%nat) None])) =
    [TVal (Ok (g (h 0%nat))); TDone; TVal (Ok (g (h 0%nat))); TVal (Ok (transp num (g (h 0%nat))))].
Proof. exact @in_place_kernel. Qed.
Print Assumptions C23_modified_object_kernel_refuted.

Example C23_nontrivial :
  exists s, init_tree (V := Z) (D := Z) [RName "standardize"] (LStr "normal") Z.of_nat = Ok s /\
    (let os := [TApply (Some 3%nat) None None; TSample; TLevel (Some (LStr "total"));
                TApply (Some 3%nat) None (Some [RName "center"]); TRevert (-14) None; TApply (Some 4%nat) None None] in
     tadmissible_history toy true s os /\
     map snd (fst (trun toy true s os)) =
     [TVal (Ok (-14)); TVal (Ok 0); TDone; TVal (Ok (-7)); TVal (Ok 3); TVal (Ok (-12))]) /\
    exists s', init_tree (V := Z) (D := Z) [RName "standardize"] (LStr "light") Z.of_nat = Ok s' /\
      let os := [TApply (Some 3%nat) None None; THeap (fun _ => 7); TApply (Some 3%nat) None None] in
      Forall light_op os /\ map snd (fst (trun toy true s' os)) = [TVal (Ok (-14)); TDone; TVal (Ok (-6))].
Proof.
  eexists. split; [vm_compute; reflexivity|]. split.
  - cbv zeta. split; [|vm_compute; reflexivity]. cbn [tadmissible_history tadmissible documented_level known_name].
    repeat (split; [first [exact I|cbn; auto 8]|]). exact I.
  - eexists. split; [vm_compute; reflexivity|]. cbv zeta. split; [repeat constructor|vm_compute; reflexivity].
Qed.

(** * C24 *)

(** At the default level "normal" every evaluation on new data keeps its result,
    which is documented to happen from "heavy" (default) or "total" (others) on. *)
Theorem C24_data_kept_at_normal_refuted :
  forall (V D : Type) (num : numerics V D) (req : list treq) (level : lvl) (heap : nat -> D) (s : tstate V D)
         (os : list (top V D)) (x : nat) (y : option nat) (r : option (list treq)) (p : path) (v : V) (s' : tstate V D),
    documented_level (Some level) -> init_tree req level heap = Ok s ->
    tadmissible_history num true s os ->
    tree_level (snd (trun num true s os)) = Some (LInt 2) ->
    requested (t_default (snd (trun num true s os))) r = Ok p ->
    apply num true (Some x) y r (snd (trun num true s os)) = (Ok v, s') ->
    exists n e, nget (t_nodes s') p = Some n /\ stored (n_cache n) (key_string p (KOos x)) = Some e /\
      e_val e = v /\ 2 < documented_from (n_default n) (KOos x).
Proof. exact @kept_from_normal_on. Qed.
Print Assumptions C24_data_kept_at_normal_refuted.

(** After an evaluation, statistics of new data are kept only from their documented
    level on, and at "none" and "light" nothing about new data is kept. *)
Theorem C24_kept_only_partial :
  forall (V D : Type) (num : numerics V D) (explicit : bool) (req : list treq) (level : lvl) (heap : nat -> D)
         (s : tstate V D) (os : list (top V D)) (x y : option nat) (r : option (list treq)) (v : V)
         (s' : tstate V D) (z : Z),
    documented_level (Some level) -> init_tree req level heap = Ok s ->
    tadmissible_history num explicit s os ->
    tree_level (snd (trun num explicit s os)) = Some (LInt z) ->
    apply num explicit x y r (snd (trun num explicit s os)) = (Ok v, s') ->
    (forall p n w e, nget (t_nodes s') p = Some n ->
       stored (n_cache n) (key_string p (KOosStat w)) = Some e ->
       documented_from (n_default n) (KOosStat w) <= z) /\
    (z <= 1 -> forall w, ~ holds s' w).
Proof. exact @kept_only. Qed.
Print Assumptions C24_kept_only_partial.

Example C24_nontrivial :
  exists s, init_tree (V := Z) (D := Z) [RName "center"] (LStr "heavy") Z.of_nat = Ok s /\
    let os := [TApply (Some 3%nat) None None; TLevel (Some (LStr "normal"))] in
    tadmissible_history toy true s os /\ tree_level (snd (trun toy true s os)) = Some (LInt 2) /\
    fst (apply toy true (Some 4%nat) None (Some [RName "variance"]) (snd (trun toy true s os))) = Ok 8.
Proof.
  eexists. split; [vm_compute; reflexivity|]. cbv zeta. split; [|split; vm_compute; reflexivity].
  cbn [tadmissible_history tadmissible documented_level known_name].
  repeat (split; [first [exact I|cbn; auto 8]|]). exact I.
Qed.

(** * C25 *)

Theorem C25_drops_a_transform_refuted :
  beautify [RName "normalize"; RName "normalize"; RName "center"; RName "normalize"] = Ok [Sphere; Sphere] /\
  merged (flat_map meaning [RName "normalize"; RName "normalize"; RName "center"; RName "normalize"]) =
  [Sphere; MeanCenter; Sphere].
Proof. exact merging_drops_a_transform. Qed.
Print Assumptions C25_drops_a_transform_refuted.

Theorem C25_keeps_repeats_refuted :
  beautify [RCls Sphere; RCls Sphere; RCls Sphere] = Ok [Sphere; Sphere] /\ ~ no_repeat [Sphere; Sphere].
Proof. exact merging_keeps_repeats. Qed.
Print Assumptions C25_keeps_repeats_refuted.

(** An unknown name raises; otherwise the result is a part of the requested
    sequence, in order, with the same first transform. *)
Theorem C25_part_of_the_request_partial :
  forall l : list treq,
    (Forall recognised l -> exists cs, beautify l = Ok cs /\ subseq cs (flat_map meaning l) /\
                                       hd_error cs = hd_error (flat_map meaning l)) /\
    (~ Forall recognised l -> beautify l = Err ENameError).
Proof. exact beautify_meaning. Qed.
Print Assumptions C25_part_of_the_request_partial.

(** Without equal neighbours the request is taken as it is. *)
Theorem C25_no_repeats_partial :
  forall l : list treq, Forall recognised l -> no_repeat (flat_map meaning l) ->
    beautify l = Ok (flat_map meaning l).
Proof. exact beautify_no_repeat. Qed.
Print Assumptions C25_no_repeats_partial.

(** A single repetition is merged, unless the same transform comes again two
    positions later. *)
Theorem C25_single_repeat_partial :
  forall (l : list treq) (l1 : list cls) (a : cls) (l2 : list cls),
    Forall recognised l -> flat_map meaning l = (l1 ++ a :: a :: l2)%list ->
    no_repeat (l1 ++ a :: l2) -> nth_error l2 1 <> Some a ->
    beautify l = Ok (merged (flat_map meaning l)) /\ merged (flat_map meaning l) = (l1 ++ a :: l2)%list.
Proof. exact beautify_one_repeat. Qed.
Print Assumptions C25_single_repeat_partial.

(** For every request, what comes out: an element is dropped when the element as many places further
    on as were dropped before is the one compared last ([kept_late]). *)
Theorem C25_exactly :
  forall l : list treq, Forall recognised l -> beautify l = Ok (kept_late 0 None (flat_map meaning l)).
Proof. exact beautify_late. Qed.
Print Assumptions C25_exactly.

Example C25_nontrivial :
  let l := [RName "minmax"; RName "center"; RName "standard"; RName "normalize"] in
  Forall recognised l /\ flat_map meaning l = ([MinMax] ++ MeanCenter :: MeanCenter :: [UnitVar; Sphere])%list /\
  no_repeat ([MinMax] ++ MeanCenter :: [UnitVar; Sphere]) /\ nth_error [UnitVar; Sphere] 1 <> Some MeanCenter /\
  beautify l = Ok [MinMax; MeanCenter; UnitVar; Sphere].
Proof.
  cbv zeta. split; [repeat constructor; discriminate|]. split; [reflexivity|].
  split; [cbn; intuition discriminate|]. split; [discriminate|reflexivity].
Qed.

(** * C31 *)

(** Kernels without a transform of their own leave the list alone, so repeated
    calls repeat their result. *)
Theorem C31_arguments_unchanged_partial :
  forall (k : kclass) (n : nat) (l : list treq), kc_required k = None ->
    repeat_calls k n l = (repeat (fst (simplify k l)) n, l).
Proof. exact repeat_calls_same. Qed.
Print Assumptions C31_arguments_unchanged_partial.

Theorem C31_constructor_unchanged_partial :
  forall (k : kclass) (l : list treq), kc_required k = None -> snd (kernel_init k false false l) = l.
Proof. exact kernel_init_unchanged. Qed.
Print Assumptions C31_constructor_unchanged_partial.

(** The cosine kernel appends to the caller's list at each call, and the third
    call gives another result than the first. *)
Theorem C31_cosine_refuted :
  forall (n : nat) (l : list treq),
    snd (repeat_calls cosine n l) = (l ++ repeat (RName "unit_sphere_normalization") n)%list.
Proof. exact cosine_grows. Qed.
Print Assumptions C31_cosine_refuted.

Theorem C31_cosine_result_changes_refuted :
  fst (repeat_calls cosine 3 []) = [Ok [Sphere]; Ok [Sphere]; Ok [Sphere; Sphere]].
Proof. exact cosine_third_call. Qed.
Print Assumptions C31_cosine_result_changes_refuted.

(** The legacy flags append to the list given to the constructor of any kernel. *)
Theorem C31_flags_refuted :
  forall (k : kclass) (l : list treq), kc_required k = None ->
    snd (kernel_init k true false l) = (l ++ [RName "mean_centering"])%list.
Proof. exact center_flag_grows. Qed.
Print Assumptions C31_flags_refuted.

Example C31_nontrivial :
  let k := KClass None true in
  repeat_calls k 2 [RName "normalize"; RName "center"] =
  ([Ok [MeanCenter]; Ok [MeanCenter]], [RName "normalize"; RName "center"]).
Proof. reflexivity. Qed.
