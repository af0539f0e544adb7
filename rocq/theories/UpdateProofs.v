(** Proof that every update of a trainable sample without gradient leaves the cache behind (C15). *)
From Verif Require Import Base Cache CacheSpec Tree ModuleTree Sample KernelState.
Open Scope string_scope.
Open Scope Z_scope.

Section U.
  Context {F Dm Sg Km : Type} (transform : list (list F) -> list (list F)) (no_transform : bool).
  Context (dist : list (list F) -> list (list F) -> Dm) (heur : Dm -> Sg) (one : Sg) (kern : Sg -> Dm -> result Km).
  Context (dkey : string) (orth : nat -> nat -> list (list F)).
  Notation step := (kstep transform no_transform dist heur one kern dkey orth).

  Lemma failed_update_every (s : kstate F Dm Sg Km) values idx t :
    ss_trainable (k_obj s) = true -> ss_grad (k_obj s) = None -> empty_sample (k_obj s) = false ->
    let rows := match idx with Some l => l | None => range (match ss_num (k_obj s) with Some n => n | None => 0 end) end in
    List.length rows = List.length (t_rows values) -> write_rows (ss_sample (k_obj s)) rows values = Ok t ->
    exists s', step s (KSample (SUpdate values idx)) = (OutUnit (Err EAttributeError), s') /\
      ss_sample (k_obj s') = t /\ k_sigma s' = k_sigma s /\
      forall e m, stored (k_cache s) "K" = Some e -> e_val e = VK m ->
        fst (step s KReadK) = OutK (Ok m) /\ fst (step s' KReadK) = OutK (Ok m).
  Proof.
    intros T G E rows L W. eexists. split; [|split; [|split]].
    - cbn [kstep sstep]. unfold update_sample. rewrite E. fold rows. rewrite L, Nat.eqb_refl. cbn [negb]. rewrite W, T, G. reflexivity.
    - reflexivity.
    - reflexivity.
    - intros e m St V. cbn [kstep]. unfold read_K, get_with. cbn [a_overwrite level_args]. unfold stored in St. cbn [with_obj k_cache k_obj with_sample ss_cache].
      unfold k_cache in *. cbn [k_obj ss_cache with_sample]. rewrite St, V. split; reflexivity.
  Qed.
End U.
