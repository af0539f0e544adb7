(** Model of [kerch/feature/cache.py] and of the level table of
    [kerch/utils/defaults.py].  Definitions only. *)
From Verif Require Import Base.
Open Scope string_scope.
Open Scope Z_scope.

(** A cache level as Python sees it: an integer or, when a name was not
    recognised, a string (cache.py:68-76). *)
Inductive lvl : Type := LInt (n : Z) | LStr (s : string).

(** [Cache._cache_level_switcher] (cache.py:28-32). *)
Definition level_switcher (s : string) : option Z :=
  if String.eqb s "none" then Some 0
  else if String.eqb s "light" then Some 1
  else if String.eqb s "normal" then Some 2
  else if String.eqb s "heavy" then Some 3
  else if String.eqb s "total" then Some 4
  else None.

(** [Cache._get_level] (cache.py:68-76): [None] means the current level; an
    unknown name yields the string given as default to [dict.get]. *)
Definition get_level (cur : lvl) (l : option lvl) : lvl :=
  match l with
  | None => cur
  | Some (LInt n) => LInt n
  | Some (LStr s) =>
      match level_switcher s with
      | Some n => LInt n
      | None => LStr "Unrecognized cache level."
      end
  end.

(** Python [a <= b] on levels: integers compare, strings compare
    lexicographically, mixed operands raise [TypeError]. *)
Definition lvl_le (a b : lvl) : result bool :=
  match a, b with
  | LInt m, LInt n => Ok (m <=? n)
  | LStr s, LStr t => Ok (match String.compare s t with Gt => false | _ => true end)
  | _, _ => Err ETypeError
  end.

(** Python [a > b] on levels. *)
Definition lvl_gt (a b : lvl) : result bool :=
  match lvl_le a b with Ok r => Ok (negb r) | Err e => Err e end.

(** Python [l == 0]. *)
Definition lvl_is_zero (l : lvl) : bool :=
  match l with LInt n => n =? 0 | LStr _ => false end.

(** [DEFAULT_CACHE_LEVEL] (utils/defaults.py:3-35), the whole table. *)
Definition default_cache_level : dict string :=
  [ ("forward_sample_default_representation", "light");
    ("forward_sample_other_representation", "normal");
    ("forward_oos_default_representation", "heavy");
    ("forward_oos_other_representation", "total");
    ("sample_phi", "light"); ("sample_C", "light"); ("sample_K", "light");
    ("Level_I_default_representation", "normal");
    ("Level_I_other_representation", "total");
    ("PPCA_B_primal", "normal"); ("PPCA_B_dual", "normal");
    ("PPCA_Inv_primal", "normal"); ("PPCA_Inv_dual", "normal");
    ("KPCA_total_variance_default_representation", "normal");
    ("KPCA_total_variance_other_representation", "total");
    ("Level_subloss_default_representation", "normal");
    ("Level_subloss_other_representation", "total");
    ("sample_transform", "none");
    ("kernel_explicit_transform", "none");
    ("kernel_implicit_transform", "none");
    ("Wasserstein_kernel_dist", "normal");
    ("transform_sample_data_default", "light");
    ("transform_sample_data_nondefault", "normal");
    ("transform_sample_statistics_default", "light");
    ("transform_sample_statistics_nondefault", "light");
    ("transform_oos_data_level_default", "heavy");
    ("transform_oos_data_level_nondefault", "total");
    ("transform_oos_statistics_default", "normal");
    ("transform_oos_statistics_nondefault", "heavy");
    ("_poly_explicit_fun", "light");
    ("_rsf_piv", "normal");
    ("_nystrom_elements", "light") ].

(** The [level_key] argument: [None], a string, or some other hashable Python
    object such as the lambda passed at level/_View.py:423. *)
Inductive level_key : Type := KNone | KStr (s : string) | KObj.

(** The level an element is filed under (cache.py:122-126): the table entry,
    or the default when the key is missing from the table. *)
Definition entry_level (cur : lvl) (k : level_key) (default_level : string) : lvl :=
  let name :=
    match k with
    | KStr s => match dget default_cache_level s with Some l => l | None => default_level end
    | KNone | KObj => default_level
    end in
  get_level cur (Some (LStr name)).

Section Cache.
  Context {V : Type}.

  (** A cache element: (level, persisting, value) (cache.py:133,164). *)
  Record entry : Type := Entry { e_level : lvl; e_persisting : bool; e_val : V }.

  (** The caching state of an object (cache.py:38-39). *)
  Record cache : Type := MkCache { c_level : lvl; c_entries : dict entry }.

  Definition with_entries (c : cache) (d : dict entry) : cache :=
    MkCache (c_level c) d.

  (** The constructor (cache.py:34-39): empty cache, then the level setter. *)
  Definition init_cache (l : lvl) : cache :=
    MkCache (get_level (LInt 2) (Some l)) [].

  (** The level setter (cache.py:60-66).  The loop over [self._cache.values()]
      tests whether the stored triples are [Cache] instances; a tuple never
      is, so it has no effect on the entries. *)
  Definition set_level (c : cache) (l : option lvl) : cache :=
    MkCache (get_level (c_level c) l) (c_entries c).

  (** The level getter (cache.py:56-58): inverse table lookup, [KeyError] when
      the stored level is not one of the five integers. *)
  Definition get_level_name (c : cache) : result string :=
    match c_level c with
    | LInt 0 => Ok "none" | LInt 1 => Ok "light" | LInt 2 => Ok "normal"
    | LInt 3 => Ok "heavy" | LInt 4 => Ok "total"
    | _ => Err EKeyError
    end.

  (** Arguments of [_get] other than key and function (cache.py:136-137). *)
  Record get_args : Type := GetArgs {
    a_level_key : level_key;
    a_default_level : string;
    a_force : bool;
    a_overwrite : bool;
    a_persisting : bool;
    a_destroy : bool }.

  (** [_get(key, fun)] with all optional arguments at their defaults. *)
  Definition default_args : get_args := GetArgs KNone "normal" false false false false.

  (** [_save] (cache.py:99-134).  [v] is the outcome of calling [fun()]; the
      nested state change of [fun] is handled by the callers that need it.
      Evaluation order: level lookup (cannot raise), [fun()], comparison
      (may raise [TypeError]; Python evaluates it before [force]), store. *)
  Definition save (c : cache) (key : string) (v : result V) (a : get_args)
    : result V * cache :=
    let level := entry_level (c_level c) (a_level_key a) (a_default_level a) in
    match v with
    | Err e => (Err e, c)
    | Ok val =>
        match lvl_le level (c_level c) with
        | Err e => (Err e, c)
        | Ok b =>
            if b || a_force a then
              (Ok val, with_entries c (dset (c_entries c) key
                                            (Entry level (a_persisting a) val)))
            else (Ok val, c)
        end
    end.

  (** [_remove_entry] (cache.py:249-251). *)
  Definition remove_entry (c : cache) (k : string) : cache :=
    if dmem (c_entries c) k then with_entries c (dpop (c_entries c) k) else c.

  (** The argument of [_remove_from_cache]: a string or a list of strings. *)
  Inductive key_arg : Type := KeyStr (s : string) | KeyList (l : list string).

  (** The loop of cache.py:253-257.  A Python string has [__iter__], so it is
      iterated over, character by character. *)
  Definition key_items (k : key_arg) : list string :=
    match k with KeyStr s => chars s | KeyList l => l end.

  (** [_remove_from_cache] (cache.py:237-257). *)
  Definition remove_from_cache (c : cache) (k : key_arg) : cache :=
    fold_left remove_entry (key_items k) c.

  (** [_get] (cache.py:136-180). *)
  Definition get (c : cache) (key : string) (v : result V) (a : get_args)
    : result V * cache :=
    match (if a_overwrite a then None else dget (c_entries c) key) with
    | Some e => (Ok (e_val e), c)
    | None =>
        match save c key v a with
        | (Ok val, c') =>
            (Ok val, if a_destroy a then remove_from_cache c' (KeyStr key) else c')
        | (Err e, c') => (Err e, c')
        end
    end.

  (** [_reset_cache] (cache.py:182-210).  [avoided] is the concatenation of
      the [_cache_elements] of the classes to avoid (lines 196-199). *)
  Definition reset_entry (reset_persisting : bool) (avoided : list string)
             (c : cache) (k : string) : cache :=
    match dget (c_entries c) k with
    | Some e =>
        if smem k avoided then c
        else if negb (e_persisting e) || reset_persisting
             then with_entries c (dpop (c_entries c) k) else c
    | None => c
    end.

  Definition reset_cache (c : cache) (reset_persisting : bool) (avoided : list string)
    : cache :=
    if reset_persisting && (Nat.eqb (List.length avoided) 0) then with_entries c []
    else fold_left (reset_entry reset_persisting avoided) (dkeys (c_entries c)) c.

  (** [_clean_cache] (cache.py:212-235).  The comparison [value[0] > max_level]
      can raise; the keys popped before that stay popped. *)
  Fixpoint clean_loop (keys : list string) (max_level : lvl) (c : cache)
    : result unit * cache :=
    match keys with
    | [] => (Ok tt, c)
    | k :: ks =>
        match dget (c_entries c) k with
        | None => clean_loop ks max_level c
        | Some e =>
            match lvl_gt (e_level e) max_level with
            | Err x => (Err x, c)
            | Ok true => clean_loop ks max_level (with_entries c (dpop (c_entries c) k))
            | Ok false => clean_loop ks max_level c
            end
        end
    end.

  Definition clean_cache (c : cache) (l : option lvl) : result unit * cache :=
    let max_level := get_level (c_level c) l in
    if lvl_is_zero max_level then (Ok tt, reset_cache c true [])
    else clean_loop (dkeys (c_entries c)) max_level c.

  (** [cache_keys] (cache.py:277-287): keys not starting with an underscore,
      or all of them.  [key[0]] raises [IndexError] on an empty key; the model
      treats it as public (no caller uses an empty key). *)
  Definition is_private (k : string) : bool :=
    match k with String c _ => Ascii.eqb c "_"%char | EmptyString => false end.
  Definition cache_keys (c : cache) (private : bool) : list string :=
    filter (fun k => negb (is_private k) || private) (dkeys (c_entries c)).

  (** ** Histories *)

  (** One externally visible operation on a caching object.  [OWorld w] says
      that from now on the computation of key [k] gives [w k]: the object's
      inputs changed. *)
  Inductive op : Type :=
  | OGet (key : string) (a : get_args)
  | OReset (reset_persisting : bool) (avoided : list string)
  | OClean (l : option lvl)
  | ORemove (k : key_arg)
  | OSetLevel (l : option lvl)
  | OWorld (w : string -> result V).

  Record state : Type := MkState { s_cache : cache; s_world : string -> result V }.

  (** What an operation lets the caller see: the value read, if it is a read. *)
  Inductive out : Type := ORead (key : string) (r : result V) | ODone.

  Definition step (s : state) (o : op) : out * state :=
    match o with
    | OGet key a =>
        let '(r, c) := get (s_cache s) key (s_world s key) a in
        (ORead key r, MkState c (s_world s))
    | OReset p av => (ODone, MkState (reset_cache (s_cache s) p av) (s_world s))
    | OClean l => (ODone, MkState (snd (clean_cache (s_cache s) l)) (s_world s))
    | ORemove k => (ODone, MkState (remove_from_cache (s_cache s) k) (s_world s))
    | OSetLevel l => (ODone, MkState (set_level (s_cache s) l) (s_world s))
    | OWorld w => (ODone, MkState (s_cache s) w)
    end.

  (** The run of a history: each output paired with the world in force when it
      was produced. *)
  Fixpoint run (s : state) (os : list op) : list ((string -> result V) * out) * state :=
    match os with
    | [] => ([], s)
    | o :: os' =>
        let '(r, s') := step s o in
        let '(rs, s'') := run s' os' in
        ((s_world s, r) :: rs, s'')
    end.
End Cache.

Arguments entry V : clear implicits.
Arguments cache V : clear implicits.
Arguments op V : clear implicits.
Arguments state V : clear implicits.
Arguments out V : clear implicits.
