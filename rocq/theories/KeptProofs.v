From Verif Require Import Base BaseProofs Cache CacheSpec CacheProofs KeptSpec TransformTree Beautify BeautifySpec BeautifyProofs.
Open Scope string_scope.
Open Scope Z_scope.

Lemma kept_table : forallb (fun p => match entry_level (LInt 0) (KStr (fst p)) "normal" with LInt n => Z.eqb n (snd p) | LStr _ => false end) kept_from = true.
Proof. vm_compute. reflexivity. Qed.
Lemma entry_level_cur a b k d : entry_level a k d = entry_level b k d.
Proof. reflexivity. Qed.
Lemma kept_level kind n cur : In (kind, n) kept_from -> entry_level cur (KStr kind) "normal" = LInt n.
Proof.
  intros H. pose proof (proj1 (forallb_forall _ _) kept_table _ H) as E. cbn [fst snd] in E.
  rewrite (entry_level_cur cur (LInt 0)). destruct (entry_level (LInt 0) (KStr kind) "normal") as [m|s]; [|discriminate E].
  apply Z.eqb_eq in E. now subst m.
Qed.
Lemma read_kept (V : Type) (c : cache V) k kind n z (v : V) :
  In (kind, n) kept_from -> c_level c = LInt z -> stored c k = None ->
  fst (get c k (Ok v) (read_as kind)) = Ok v /\
  stored (snd (get c k (Ok v) (read_as kind))) k = (if n <=? z then Some (Entry (LInt n) false v) else None) /\
  forall k', k' <> k -> stored (snd (get c k (Ok v) (read_as kind))) k' = stored c k'.
Proof.
  intros H Hz Hk. unfold get, read_as. unfold stored in *. rewrite Hk. cbn [a_overwrite a_force a_persisting a_destroy a_level_key a_default_level].
  unfold save. cbn [a_overwrite a_force a_persisting a_destroy a_level_key a_default_level]. rewrite (kept_level kind n _ H), Hz. cbn [lvl_le orb].
  rewrite orb_false_r. destruct (n <=? z); cbn [fst snd with_entries c_entries].
  - split; [reflexivity|]. split; [apply dset_get_same|]. intros k' Hne. now apply dset_get_other.
  - auto.
Qed.

Lemma get_transform_is (k : kclass) (default : list cls) :
  get_transform k default None = (Ok default, None) /\
  (forall l, kc_required k = None ->
     snd (get_transform k default (Some l)) = Some l /\
     (Forall recognised l ->
        fst (get_transform k default (Some l)) =
        Ok (without_leading_sphere (kc_normalized k) (kept_late 0 None (flat_map meaning l)))) /\
     (~ Forall recognised l -> fst (get_transform k default (Some l)) = Err ENameError)).
Proof.
  split; [reflexivity|]. intros l Hk. unfold get_transform, simplify. rewrite Hk. cbn [fst snd]. split; [reflexivity|]. split.
  - intros H. rewrite (beautify_late l H). cbn [bind]. unfold without_leading_sphere.
    destruct (kept_late 0 None (flat_map meaning l)) as [|[] cs]; destruct (kc_normalized k); reflexivity.
  - intros H. unfold beautify. now rewrite (expand_requests_bad l H).
Qed.
