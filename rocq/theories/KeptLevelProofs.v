(** What a level keeps at each cache level: proofs. *)
From Verif Require Import Base BaseProofs Cache CacheSpec CacheProofs KeptSpec LevelCache.
Open Scope string_scope.
Open Scope Z_scope.

Lemma first_read (V : Type) (c : cache V) k (a : get_args) z (v : V) :
  entry_level (c_level c) (a_level_key a) (a_default_level a) = LInt 2 ->
  a_force a = false -> a_overwrite a = false -> a_persisting a = false -> a_destroy a = false ->
  c_level c = LInt z -> stored c k = None ->
  fst (get c k (Ok v) a) = Ok v /\
  stored (snd (get c k (Ok v) a)) k = (if 2 <=? z then Some (Entry (LInt 2) false v) else None).
Proof.
  intros E A1 A2 A3 A4 Hz Hk. unfold get, stored in *. rewrite A2, Hk. unfold save. rewrite E, Hz, A1, A3. cbn [lvl_le].
  rewrite orb_false_r. destruct (2 <=? z); rewrite A4; cbn [fst snd with_entries c_entries]; (split; [reflexivity|]).
  - apply dset_get_same.
  - exact Hk.
Qed.

Lemma other_read (V : Type) (c : cache V) k k' (a : get_args) (v : result V) :
  a_destroy a = false -> k' <> k -> stored (snd (get c k v a)) k' = stored c k'.
Proof.
  intros A Hne. unfold get, stored. destruct (if a_overwrite a then None else dget (c_entries c) k); [reflexivity|].
  unfold save. destruct v as [v|e]; [|reflexivity].
  destruct (lvl_le (entry_level (c_level c) (a_level_key a) (a_default_level a)) (c_level c)) as [b|e]; [|reflexivity].
  destruct (b || a_force a)%bool; rewrite A; cbn [snd with_entries c_entries]; [apply dset_get_other; exact Hne|reflexivity].
Qed.

Section Level.
  Context {D W L X O R : Type}.
  Variable out_dual : D -> option X -> result O.
  Variable out_primal : W -> L -> option X -> result O.
  Variable root : L -> L.
  Variable loss_original : bool -> result R.
  Variable loss_projected_dual : D -> result R.
  Variable loss_projected_primal : W -> result R.

  Lemma output_kept (s : level D W L X O R) x z o :
    c_level (l_cache s) = LInt z -> stored (l_cache s) (forward_key x false) = None ->
    out_dual (p_dual (l_params s)) (content s x) = Ok o ->
    fst (forward out_dual out_primal root s x false) = Ok o /\
    stored (l_cache (snd (forward out_dual out_primal root s x false))) (forward_key x false) =
      (if 2 <=? z then Some (Entry (LInt 2) false (VOut o)) else None).
  Proof.
    intros Hz Hk Ho. unfold forward, compute. unfold stored in Hk at 1. rewrite Hk, Ho. cbn [as_val].
    destruct (first_read _ (l_cache s) (forward_key x false) forward_args z (VOut o : val L O R) eq_refl eq_refl eq_refl eq_refl eq_refl Hz Hk) as (E & S).
    destruct (get (l_cache s) (forward_key x false) (Ok (VOut o)) forward_args) as [r c]. cbn [fst snd] in *. subst r. split; [reflexivity|exact S].
  Qed.
  Lemma loss_kept (s : level D W L X O R) primal z r : let k := ("subloss_original_" ++ rep_name primal)%string in
    c_level (l_cache s) = LInt z -> stored (l_cache s) k = None -> loss_original primal = Ok r ->
    fst (read_original loss_original s primal) = Ok r /\
    stored (l_cache (snd (read_original loss_original s primal))) k =
      (if 2 <=? z then Some (Entry (LInt 2) false (VLoss r)) else None).
  Proof.
    intros k Hz Hk Hr. unfold read_original. fold k. rewrite Hr. cbn [as_val].
    assert (E0 : entry_level (c_level (l_cache s)) (a_level_key (loss_args (Bool.eqb primal (l_primal s)))) (a_default_level (loss_args (Bool.eqb primal (l_primal s)))) = LInt 2)
      by (destruct (Bool.eqb primal (l_primal s)); reflexivity).
    destruct (first_read _ (l_cache s) k (loss_args (Bool.eqb primal (l_primal s))) z (VLoss r : val L O R) E0 eq_refl eq_refl eq_refl eq_refl Hz Hk) as (E & S).
    destruct (get (l_cache s) k (Ok (VLoss r)) (loss_args (Bool.eqb primal (l_primal s)))) as [q c]. cbn [fst snd] in *. subst q. split; [reflexivity|exact S].
  Qed.
  Lemma projected_kept (s : level D W L X O R) primal z r : let k := ("subloss_projected_" ++ rep_name primal)%string in
    c_level (l_cache s) = LInt z -> stored (l_cache s) k = None ->
    (if primal then loss_projected_primal (p_primal (l_params s)) else loss_projected_dual (p_dual (l_params s))) = Ok r ->
    fst (read_projected loss_projected_dual loss_projected_primal s primal) = Ok r /\
    stored (l_cache (snd (read_projected loss_projected_dual loss_projected_primal s primal))) k =
      (if 2 <=? z then Some (Entry (LInt 2) false (VLoss r)) else None).
  Proof.
    intros k Hz Hk Hr. unfold read_projected. fold k. rewrite Hr. cbn [as_val].
    assert (E0 : entry_level (c_level (l_cache s)) (a_level_key (loss_args (Bool.eqb primal (l_primal s)))) (a_default_level (loss_args (Bool.eqb primal (l_primal s)))) = LInt 2)
      by (destruct (Bool.eqb primal (l_primal s)); reflexivity).
    destruct (first_read _ (l_cache s) k (loss_args (Bool.eqb primal (l_primal s))) z (VLoss r : val L O R) E0 eq_refl eq_refl eq_refl eq_refl Hz Hk) as (E & S).
    destruct (get (l_cache s) k (Ok (VLoss r)) (loss_args (Bool.eqb primal (l_primal s)))) as [q c]. cbn [fst snd] in *. subst q. split; [reflexivity|exact S].
  Qed.

  Lemma primal_output_kept (s : level D W L X O R) x z o :
    c_level (l_cache s) = LInt z -> stored (l_cache s) (forward_key x true) = None -> stored (l_cache s) "sqrt_vals" = None ->
    out_primal (p_primal (l_params s)) (root (p_vals (l_params s))) (content s x) = Ok o ->
    fst (forward out_dual out_primal root s x true) = Ok o /\
    stored (l_cache (snd (forward out_dual out_primal root s x true))) (forward_key x true) =
      (if 2 <=? z then Some (Entry (LInt 2) false (VOut o)) else None) /\
    stored (l_cache (snd (forward out_dual out_primal root s x true))) "sqrt_vals" =
      (if 2 <=? z then Some (Entry (LInt 2) false (VRoot (root (p_vals (l_params s))))) else None).
  Proof.
    intros Hz Hk Hq Ho. unfold forward, compute, read_root. unfold stored in Hk at 1. rewrite Hk.
    assert (N : forward_key x true <> "sqrt_vals") by (unfold forward_key; cbn; discriminate).
    set (v := VRoot (root (p_vals (l_params s))) : val L O R).
    destruct (first_read _ (l_cache s) "sqrt_vals" default_args z v eq_refl eq_refl eq_refl eq_refl eq_refl Hz Hq) as (E & S).
    assert (Hk1 : stored (snd (get (l_cache s) "sqrt_vals" (Ok v) default_args)) (forward_key x true) = None).
    { rewrite other_read; [exact Hk|reflexivity|exact N]. }
    pose proof (get_level_field (l_cache s) "sqrt_vals" (Ok v) default_args) as Hl. rewrite Hz in Hl.
    destruct (get (l_cache s) "sqrt_vals" (Ok v) default_args) as [r c]. cbn [fst snd] in *. subst r. unfold v in *. cbn [bind]. rewrite !Ho. cbn [as_val].
    destruct (first_read _ c (forward_key x true) forward_args z (VOut o : val L O R) eq_refl eq_refl eq_refl eq_refl eq_refl Hl Hk1) as (E2 & S2).
    assert (S3 : stored (snd (get c (forward_key x true) (Ok (VOut o : val L O R)) forward_args)) "sqrt_vals" = stored c "sqrt_vals").
    { apply other_read; [reflexivity|congruence]. }
    destruct (get c (forward_key x true) (Ok (VOut o)) forward_args) as [q c2]. cbn [fst snd] in *. subst q.
    split; [reflexivity|]. split; [exact S2|]. cbn [l_cache with_cache]. rewrite S3. exact S.
  Qed.
End Level.
