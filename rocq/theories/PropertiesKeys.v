(** Property theorems C217: listing what a cache holds. *)
From Verif Require Import Base BaseProofs Cache CacheSpec CacheProofs KeysProofs.
Open Scope string_scope.

(** After every history, the listing shows each stored name exactly once: every
    stored name when the private ones are asked for, and otherwise every stored
    name that does not begin with an underscore. *)
Theorem C217_listing_is_what_is_stored :
  forall (V : Type) (l : lvl) (w : string -> result V) (os : list (op V)) (p : bool),
    let c := s_cache (snd (run (MkState (init_cache l) w) os)) in
    NoDup (cache_keys c p) /\
    forall k, In k (cache_keys c p) <->
              stored c k <> None /\ (p = true \/ ~ exists rest, k = String "_" rest).
Proof.
  intros V l w os p. cbv zeta. split; [apply keys_nodup, wf_history|]. intros k. apply keys_in.
Qed.
Print Assumptions C217_listing_is_what_is_stored.

(** The public listing is the full one, in the same order, without the private names. *)
Theorem C217_public_within_full :
  forall (V : Type) (c : cache V) (hidden : string -> bool),
    (forall k, hidden k = true <-> exists rest, k = String "_" rest) ->
    cache_keys c false = filter (fun k => negb (hidden k)) (cache_keys c true).
Proof.
  intros V c hidden Hh. rewrite keys_public. apply filter_ext. intros k. f_equal.
  apply Bool.eq_true_iff_eq. rewrite Hh. apply private_iff.
Qed.
Print Assumptions C217_public_within_full.

(** Removing a list of names takes exactly those out of the listing; the others
    keep their order. *)
Theorem C217_removal :
  forall (V : Type) (l : lvl) (w : string -> result V) (os : list (op V)) (ks : list string)
         (p : bool) (gone : string -> bool),
    (forall k, gone k = true <-> In k ks) ->
    cache_keys (s_cache (snd (run (MkState (init_cache l) w) (os ++ [ORemove (KeyList ks)])%list))) p =
    filter (fun k => negb (gone k))
           (cache_keys (s_cache (snd (run (MkState (init_cache l) w) os))) p).
Proof.
  intros V l w os ks p gone Hg. rewrite run_snoc. cbn [step snd s_cache].
  rewrite remove_keys by apply wf_history. apply filter_ext. intros k. f_equal.
  apply Bool.eq_true_iff_eq. rewrite Hg. unfold smem. rewrite existsb_exists. split.
  - intros (x & Hx & Hk). apply String.eqb_eq in Hk. now subst x.
  - intros H. exists k. split; [exact H|apply String.eqb_refl].
Qed.
Print Assumptions C217_removal.

(** A read that does not destroy lists a newly stored name last and changes
    nothing else in the listing, also when it overwrites. *)
Theorem C217_read :
  forall (V : Type) (c : cache V) (k : string) (v : result V) (a : get_args),
    a_destroy a = false ->
    let c' := snd (get c k v a) in
    cache_keys c' true = cache_keys c true \/
    (stored c k = None /\ stored c' k <> None /\
     cache_keys c' true = (cache_keys c true ++ [k])%list).
Proof.
  intros V c k v a Hd c'. pose proof (read_keys c k v a Hd) as H. fold c' in H.
  destruct (stored c k) as [e|] eqn:E; [now left|].
  destruct (stored c' k) as [e|] eqn:E2; [|now left]. right.
  split; [reflexivity|]. split; [discriminate|exact H].
Qed.
Print Assumptions C217_read.

(** A history whose listing has public and private names, in the order of storage. *)
Example C217_nontrivial :
  let os := [OGet "K" default_args; OGet "_sample" default_args; OGet "phi" default_args;
             OGet "K" (GetArgs KNone "normal" false true false false); OGet "_H" default_args] in
  let c := s_cache (snd (run (MkState (init_cache (LStr "normal")) (fun _ => Ok 1%nat)) os)) in
  cache_keys c true = ["K"; "_sample"; "phi"; "_H"] /\
  cache_keys c false = ["K"; "phi"] /\
  cache_keys (remove_from_cache c (KeyList ["_sample"; "K"])) true = ["phi"; "_H"].
Proof. vm_compute. auto. Qed.
