(** A distance-based kernel object through its life: sample, selection,
    bandwidth, cache, and the transform trees kept in the cache
    ([kerch/kernel/kernel.py], [kernel/_base_kernel.py],
    [kernel/distance/_distance.py], [kernel/distance/distance.py],
    [kernel/distance/distance_squared.py], [feature/sample.py],
    [transform/TransformTree.py]).  Definitions only. *)
From Coq Require Import QArith.
From Verif Require Import Base Cache Tree ModuleTree Sample.
Open Scope string_scope.
Open Scope Z_scope.

Section Kernel.
  (** Entries of the sample, distance matrices, bandwidths, kernel matrices. *)
  Context {F Dm Sg Km : Type}.

  (** The numerical functions of the kernel class, which the state machine does
      not look into:
      - [transform]: the default sample transforms fitted on rows and applied to
        them (the last node's sample data, TransformTree.py:169-174);
      - [no_transform]: whether the default list of sample transforms is empty;
      - [dist]: [_dist] or [_square_dist] of the class;
      - [heur]: the bandwidth heuristic (distance.py:23, distance_squared.py:23);
      - [one]: the placeholder value of [_sigma] (_distance.py:33);
      - [kern]: the kernel of the scaled distances followed by the default kernel
        transforms; may raise (e.g. a transform without implicit version);
      - [dkey]: "_kernel_dist_sample" or "_kernel_square_dist_sample". *)
  Variable transform : list (list F) -> list (list F).
  Variable no_transform : bool.
  Variable dist : list (list F) -> list (list F) -> Dm.
  Variable heur : Dm -> Sg.
  Variable one : Sg.
  Variable kern : Sg -> Dm -> result Km.
  Variable dkey : string.
  Variable orth : nat -> nat -> list (list F).

  (** Values the kernel keeps in its cache. A sample-transform tree holds a
      snapshot of the selected rows (sample.py:257), its own cache level and, once
      computed, the transformed sample; a kernel-transform tree refers to the kernel
      by closures (kernel.py:140-144) and memoises the sample kernel matrix. *)
  Inductive kval : Type :=
  | VSTree (base : list (list F)) (level : lvl) (memo : option (list (list F)))
  | VKTree (level : lvl) (memo : option Km)
  | VDist (d : Dm)
  | VK (k : Km).

  (** [k_ndist] counts the evaluations of [dist] (observation only). *)
  Record kstate : Type := KState {
    k_obj : sstate F kval;
    k_sigma : option Sg;
    k_ndist : nat }.

  Definition k_cache (s : kstate) : cache kval := ss_cache (k_obj s).
  Definition with_kcache (s : kstate) (c : cache kval) : kstate :=
    KState (with_cache (k_obj s) c) (k_sigma s) (k_ndist s).
  Definition with_obj (s : kstate) (o : sstate F kval) : kstate :=
    KState o (k_sigma s) (k_ndist s).

  (** [_get(key, fun)] where computing the value runs other methods of the same
      object (cache.py:136-180). *)
  Definition get_with (s : kstate) (key : string) (a : get_args)
             (f : kstate -> result kval * kstate) : result kval * kstate :=
    match (if a_overwrite a then None else dget (c_entries (k_cache s)) key) with
    | Some e => (Ok (e_val e), s)
    | None =>
        match f s with
        | (Err e, s') => (Err e, s')
        | (Ok v, s') =>
            match save (k_cache s') key (Ok v) a with
            | (Err e, c) => (Err e, with_kcache s' c)
            | (Ok v', c) =>
                (Ok v', with_kcache s' (if a_destroy a then remove_from_cache c (KeyStr key) else c))
            end
        end
    end.

  (** A mutation of a tree that sits in the kernel's cache under [key]; nothing
      happens in the kernel when the tree is no longer there. *)
  Definition update_val (c : cache kval) (key : string) (v : kval) : cache kval :=
    match dget (c_entries c) key with
    | Some e => with_entries c (dset (c_entries c) key (Entry (e_level e) (e_persisting e) v))
    | None => c
    end.

  (** [sample[idx, :]] on the current object (sample.py:257), with the check of
      the [sample] property (124).  Without selected indices the real code indexes
      with [None] and fails later; the model raises at once. *)
  Definition current_rows (s : kstate) : result (list (list F)) :=
    if empty_sample (k_obj s) then Err ENotInitialized
    else match ss_idx (k_obj s) with
         | None => Err (EOther 0)
         | Some idx => select (t_rows (ss_sample (k_obj s))) idx
         end.

  Definition level_args (key : string) : get_args := GetArgs (KStr key) "normal" false false false false.

  (** [_sample_transform] (sample.py:253-261). *)
  Definition sample_tree (s : kstate) : result kval * kstate :=
    get_with s "sample_transform" (level_args "sample_transform")
      (fun s => match current_rows s with
                | Err e => (Err e, s)
                | Ok rows => (Ok (VSTree rows (get_level (LInt 2) (Some (c_level (k_cache s)))) None), s)
                end).

  (** The level under which the default node files its data (Transform.py:24-35,
      113-116). *)
  Definition data_level : lvl := entry_level (LInt 2) (KStr "transform_sample_data_default") "normal".

  (** Value of the transformed rows. *)
  Definition project (rows : list (list F)) : list (list F) :=
    if no_transform then rows else transform rows.

  (** [current_sample_projected] (sample.py:145-151, TransformTree.py:169-174):
      value, and whether repeated calls return the very same tensor object (the
      base tensor itself when there is no transform, the memoised one otherwise). *)
  Definition projected (s : kstate) : result (list (list F) * bool) * kstate :=
    match sample_tree s with
    | (Err e, s') => (Err e, s')
    | (Ok (VSTree base level memo), s') =>
        match memo with
        | Some p => (Ok (p, true), s')
        | None =>
            let p := project base in
            match lvl_le data_level level with
            | Err e => (Err e, s')
            | Ok true =>
                (Ok (p, true),
                 with_kcache s' (update_val (k_cache s') "sample_transform" (VSTree base level (Some p))))
            | Ok false => (Ok (p, no_transform), s')
            end
        end
    | (Ok _, s') => (Err EAttributeError, s')
    end.

  (** One evaluation of [dist] on the projected sample. *)
  Definition compute_dist (s : kstate) : result Dm * kstate :=
    match projected s with
    | (Err e, s1) => (Err e, s1)
    | (Ok (p, _), s1) =>
        match projected s1 with
        | (Err e, s2) => (Err e, s2)
        | (Ok (q, _), s2) => (Ok (dist p q), KState (k_obj s2) (k_sigma s2) (S (k_ndist s2)))
        end
    end.

  (** [_sample_dist] / [_sample_square_dist] (distance.py:15-17,
      distance_squared.py:15-17). *)
  Definition dist_args (destroy : bool) : get_args := GetArgs KNone "total" true false false destroy.
  Definition sample_dist (s : kstate) (destroy : bool) : result Dm * kstate :=
    match get_with s dkey (dist_args destroy)
            (fun s => match compute_dist s with
                      | (Err e, s') => (Err e, s')
                      | (Ok d, s') => (Ok (VDist d), s')
                      end) with
    | (Err e, s') => (Err e, s')
    | (Ok (VDist d), s') => (Ok d, s')
    | (Ok _, s') => (Err ETypeError, s')
    end.

  (** [Sample._cache_elements + _Distance._cache_elements] (sample.py:53,
      _distance.py:24). *)
  Definition spared_elements : list string :=
    ["sample_transform"; "_kernel_dist_sample"; "_kernel_square_dist_sample"].

  (** The [sigma] setter (_distance.py:55-60).  [None] is cast to [None] and the
      assignment to [_sigma.data] raises, after the cache has been reset and the
      bandwidth declared defined: the placeholder or the previous value stays. *)
  Definition set_sigma (s : kstate) (v : option Sg) : result unit * kstate :=
    let c := reset_cache (k_cache s) false spared_elements in
    let o := with_cache (k_obj s) c in
    match v with
    | Some x => (Ok tt, KState o (Some x) (k_ndist s))
    | None => (Err ETypeError,
               KState o (Some (match k_sigma s with Some x => x | None => one end)) (k_ndist s))
    end.

  (** The [sigma] getter (_distance.py:42-53) with [_determine_sigma]
      (distance.py:19-26, distance_squared.py:19-26). *)
  Definition get_sigma (s : kstate) : result Sg * kstate :=
    match k_sigma s with
    | Some x => (Ok x, s)
    | None =>
        if empty_sample (k_obj s) then (Err ENotInitialized, s)
        else match sample_dist s false with
             | (Err e, s') => (Err e, s')
             | (Ok d, s') => (Ok (heur d), snd (set_sigma s' (Some (heur d))))
             end
    end.

  (** [_implicit_with_none()] (_base_kernel.py:88-94) with [_dist_sigma] /
      [_square_dist_sigma] (distance.py:28-34, distance_squared.py:31-37) on the
      sample: the memoised distances are used when the arguments are the very
      tensors of the projected sample. *)
  Definition implicit_sample (s : kstate) : result Km * kstate :=
    match projected s with
    | (Err e, s1) => (Err e, s1)
    | (Ok (x, _), s1) =>
        match projected s1 with
        | (Err e, s2) => (Err e, s2)
        | (Ok (y, same), s2) =>
            match get_sigma s2 with
            | (Err e, s3) => (Err e, s3)
            | (Ok sg, s3) =>
                if same then
                  match sample_dist s3 true with
                  | (Err e, s4) => (Err e, s4)
                  | (Ok d, s4) => (kern sg d, s4)
                  end
                else (kern sg (dist x y), KState (k_obj s3) (k_sigma s3) (S (k_ndist s3)))
            end
        end
    end.

  (** [_kernel_implicit_transform] (kernel.py:137-146). *)
  Definition kernel_tree (s : kstate) : result kval * kstate :=
    get_with s "kernel_implicit_transform" (level_args "kernel_implicit_transform")
      (fun s => (Ok (VKTree (get_level (LInt 2) (Some (c_level (k_cache s)))) None), s)).

  (** [_kernel_implicit_transform.projected_sample] (kernel.py:191). *)
  Definition projected_kernel (s : kstate) : result Km * kstate :=
    match kernel_tree s with
    | (Err e, s1) => (Err e, s1)
    | (Ok (VKTree level memo), s1) =>
        match memo with
        | Some m => (Ok m, s1)
        | None =>
            match implicit_sample s1 with
            | (Err e, s2) => (Err e, s2)
            | (Ok m, s2) =>
                match lvl_le data_level level with
                | Err e => (Err e, s2)
                | Ok true =>
                    (Ok m, with_kcache s2 (update_val (k_cache s2) "kernel_implicit_transform"
                                                      (VKTree level (Some m))))
                | Ok false => (Ok m, s2)
                end
            end
        end
    | (Ok _, s1) => (Err EAttributeError, s1)
    end.

  (** [K] (_base_kernel.py:256-266) through [_K] (kernel.py:173-193). *)
  Definition read_K (s : kstate) : result Km * kstate :=
    match get_with s "K" (level_args "sample_K")
            (fun s => if empty_sample (k_obj s) then (Err ENotInitialized, s)
                      else match projected_kernel s with
                           | (Err e, s') => (Err e, s')
                           | (Ok m, s') => (Ok (VK m), s')
                           end) with
    | (Err e, s') => (Err e, s')
    | (Ok (VK m), s') => (Ok m, s')
    | (Ok _, s') => (Err ETypeError, s')
    end.

  (** [k()] without arguments (kernel.py:211-264 with TransformTree.py:214-236 and
      Transform.py:183-184): the tree is fetched, the matrix is computed anew, not
      memoised.  (Intermediate memoisation inside a non-empty chain of kernel
      transforms is not tracked.) *)
  Definition read_k (s : kstate) : result Km * kstate :=
    match kernel_tree s with
    | (Err e, s1) => (Err e, s1)
    | (Ok (VKTree _ _), s1) => implicit_sample s1
    | (Ok _, s1) => (Err EAttributeError, s1)
    end.

  (** The constructor (sample.py:55-70, _distance.py:26-37). *)
  Definition new_kernel (level : lvl) (a : sample_arg F) (num dim : option Z) (trainable : bool)
             (r : request) (sigma : option Sg) : result unit * kstate :=
    match new_sample orth level a num dim trainable r with
    | (Err e, o) => (Err e, KState o None 0)
    | (Ok _, o) => (Ok tt, KState o sigma 0)
    end.

  (** ** Histories *)
  Inductive kop : Type :=
  | KSample (o : sop F)                       (* sample initialisation, update, selection... *)
  | KSetSigma (v : option Sg)
  | KSetLevel (l : option lvl)
  | KReset (reset_persisting : bool)
  | KClean (l : option lvl)
  | KReadK
  | KReadk
  | KReadSigma.

  Inductive kout : Type :=
  | OutK (r : result Km)
  | OutSigma (r : result Sg)
  | OutUnit (r : result unit).

  Definition kstep (s : kstate) (o : kop) : kout * kstate :=
    match o with
    | KSample o => let '(r, x) := sstep orth (k_obj s) o in (OutUnit r, with_obj s x)
    | KSetSigma v => let '(r, s') := set_sigma s v in (OutUnit r, s')
    | KSetLevel l => (OutUnit (Ok tt), with_kcache s (set_level (k_cache s) l))
    | KReset p => (OutUnit (Ok tt), with_kcache s (reset_cache (k_cache s) p []))
    | KClean l => let '(r, c) := clean_cache (k_cache s) l in (OutUnit r, with_kcache s c)
    | KReadK => let '(r, s') := read_K s in (OutK r, s')
    | KReadk => let '(r, s') := read_k s in (OutK r, s')
    | KReadSigma => let '(r, s') := get_sigma s in (OutSigma r, s')
    end.

  (** Outputs of a history, each with the state in which it was produced. *)
  Fixpoint krun (s : kstate) (os : list kop) : list (kstate * kout) * kstate :=
    match os with
    | [] => ([], s)
    | o :: os' =>
        let '(r, s') := kstep s o in
        let '(rs, s'') := krun s' os' in
        ((s, r) :: rs, s'')
    end.
End Kernel.
Arguments kval F Dm Km : clear implicits.
Arguments kstate F Dm Sg Km : clear implicits.
Arguments kop F Sg : clear implicits.
Arguments kout Sg Km : clear implicits.
