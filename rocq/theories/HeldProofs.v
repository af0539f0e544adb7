(** Proofs of the exact condition in C09, and that every selection by indices is accepted (C13). *)
From Verif Require Import Base Cache Tree ModuleTree CacheRefutations.
Open Scope nat_scope.
Open Scope list_scope.

Lemma level_propagation_exactly (c : cache held) l : held_at c (c_level c) ->
  let c' := set_level_held c l in
  held_at c' (c_level c') <->
  c_level c' = c_level c \/ (forall k e t, dget (c_entries c) k = Some e -> e_val e <> HTree t).
Proof.
  intros H. cbn zeta. pose proof (set_level_held_entries c l) as E. unfold held_at in *. rewrite E.
  set (v := c_level (set_level_held c l)). clearbody v. split.
  - intros K.
    assert (D : (forall k e t, dget (c_entries c) k = Some e -> e_val e <> HTree t) \/
                exists k e t, dget (c_entries c) k = Some e /\ e_val e = HTree t).
    { assert (F : forall k, In k (map fst (c_entries c)) ->
                  (forall e t, dget (c_entries c) k = Some e -> e_val e <> HTree t) \/
                  exists e t, dget (c_entries c) k = Some e /\ e_val e = HTree t).
      { intros k _. destruct (dget (c_entries c) k) as [e|] eqn:G; [|left; intros e t C; discriminate C].
        destruct (e_val e) as [|t] eqn:V.
        - left. intros e' t C. injection C as <-. rewrite V. discriminate.
        - right. now exists e, t. }
      assert (Q : forall ks, (forall k, In k ks -> In k (map fst (c_entries c))) ->
        (forall k, In k ks -> forall e t, dget (c_entries c) k = Some e -> e_val e <> HTree t) \/
        exists k e t, dget (c_entries c) k = Some e /\ e_val e = HTree t).
      { induction ks as [|k ks IH]; intros I; [left; intros k []|].
        destruct (F k (I k (or_introl eq_refl))) as [N|[e [t P]]]; [|right; now exists k, e, t].
        destruct IH as [N'|P]; [intros k' I'; apply I; now right| |now right].
        left. intros k' [<-|I']; [exact N|now apply N']. }
      destruct (Q (map fst (c_entries c)) (fun k I => I)) as [N|P]; [|now right].
      left. intros k e t G. apply (N k) with (t := t) in G; [exact G|].
      clear -G. revert G. generalize (c_entries c) as d. induction d as [|[k0 e0] d IH]; cbn [dget map fst]; intros G; [discriminate G|].
      destruct (String.eqb k0 k) eqn:K; [left; now apply String.eqb_eq in K|right; now apply IH]. }
    destruct D as [D|[k [e [t [G V]]]]]; [now right|left].
    rewrite <- (K k e t G V). exact (H k e t G V).
  - intros [C|N] k e t G V.
    + rewrite C. exact (H k e t G V).
    + destruct (N k e t G V).
Qed.

Lemma any_indices_accepted {V} (m : smodule V) ts n l : sm_num m = Some n ->
  fst (stochastic (idx_request l) (Node m ts)) = Ok tt /\
  sm_idx (root (snd (stochastic (idx_request l) (Node m ts)))) = Some l.
Proof. intros En. cbn [stochastic]. rewrite En. cbn. split; reflexivity. Qed.
