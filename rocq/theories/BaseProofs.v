(** Lemmas on the dictionaries of [Base.v]. *)
From Verif Require Import Base.

Section Dict.
  Context {V : Type}.
  Implicit Types d : dict V.

  Lemma dget_In d k v : dget d k = Some v -> In (k, v) d.
  Proof.
    induction d as [|[k' v'] d IH]; cbn; [discriminate|].
    destruct (String.eqb_spec k' k) as [->|Hne]; intros H.
    - injection H as ->. now left.
    - right. now apply IH.
  Qed.

  Lemma dget_None d k : dget d k = None <-> ~ In k (dkeys d).
  Proof.
    induction d as [|[k' v'] d IH]; cbn.
    - split; auto.
    - destruct (String.eqb_spec k' k) as [->|Hne].
      + split; [discriminate|]. intros H; exfalso; apply H; now left.
      + rewrite IH. split; intros H; [intros [?|?]; auto|]. intros ?; apply H; now right.
  Qed.

  Lemma dget_Some_key d k v : dget d k = Some v -> In k (dkeys d).
  Proof. intros H. apply (in_map fst) in H || apply dget_In in H. now apply (in_map fst) in H. Qed.

  Lemma In_dget d k v : NoDup (dkeys d) -> In (k, v) d -> dget d k = Some v.
  Proof.
    induction d as [|[k' v'] d IH]; cbn; [easy|]. intros Hnd [Heq|Hin].
    - injection Heq as -> ->. now rewrite String.eqb_refl.
    - inversion Hnd as [|? ? Hni Hnd']; subst.
      destruct (String.eqb_spec k' k) as [->|Hne].
      + exfalso. apply Hni. now apply (in_map fst) in Hin.
      + now apply IH.
  Qed.

  Lemma dset_get_same d k v : dget (dset d k v) k = Some v.
  Proof.
    induction d as [|[k' v'] d IH]; cbn.
    - now rewrite String.eqb_refl.
    - destruct (String.eqb_spec k' k) as [->|Hne]; cbn.
      + now rewrite String.eqb_refl.
      + destruct (String.eqb_spec k' k); [contradiction|apply IH].
  Qed.

  Lemma dset_get_other d k k' v : k' <> k -> dget (dset d k v) k' = dget d k'.
  Proof.
    intros Hne. induction d as [|[k0 v0] d IH]; cbn.
    - destruct (String.eqb_spec k k'); [congruence|reflexivity].
    - destruct (String.eqb_spec k0 k) as [->|Hne0]; cbn.
      + destruct (String.eqb_spec k k'); [congruence|reflexivity].
      + destruct (String.eqb_spec k0 k'); [reflexivity|apply IH].
  Qed.

  Lemma dkeys_dset d k v :
    dkeys (dset d k v) = if dmem d k then dkeys d else dkeys d ++ [k].
  Proof.
    unfold dmem. induction d as [|[k0 v0] d IH]; cbn; [reflexivity|].
    destruct (String.eqb_spec k0 k) as [->|Hne0]; cbn; [reflexivity|].
    unfold dkeys in *. rewrite IH. destruct (dget d k); reflexivity.
  Qed.

  Lemma NoDup_dset d k v : NoDup (dkeys d) -> NoDup (dkeys (dset d k v)).
  Proof.
    intros H. rewrite dkeys_dset. unfold dmem.
    destruct (dget d k) eqn:E; [exact H|].
    apply dget_None in E. apply NoDup_rev in H.
    rewrite <- (rev_involutive (dkeys d ++ [k])), rev_app_distr. cbn.
    change (NoDup (rev ([k] ++ rev (dkeys d)))).
    apply NoDup_rev. cbn. constructor; [|exact H].
    rewrite <- in_rev. exact E.
  Qed.

  Lemma dpop_get_other d k k' : k' <> k -> dget (dpop d k) k' = dget d k'.
  Proof.
    intros Hne. induction d as [|[k0 v0] d IH]; cbn; [reflexivity|].
    destruct (String.eqb_spec k0 k) as [->|Hne0]; cbn.
    - destruct (String.eqb_spec k k'); [congruence|reflexivity].
    - destruct (String.eqb_spec k0 k'); [reflexivity|apply IH].
  Qed.

  Lemma dkeys_dpop_incl d k x : In x (dkeys (dpop d k)) -> In x (dkeys d).
  Proof.
    induction d as [|[k0 v0] d IH]; cbn; [easy|].
    destruct (String.eqb_spec k0 k) as [->|Hne0]; cbn; [now right|].
    intros [?|?]; [now left|right; now apply IH].
  Qed.

  Lemma NoDup_dpop d k : NoDup (dkeys d) -> NoDup (dkeys (dpop d k)).
  Proof.
    induction d as [|[k0 v0] d IH]; cbn; [easy|]. intros H.
    inversion H as [|? ? Hni Hnd]; subst.
    destruct (String.eqb_spec k0 k) as [->|Hne0]; cbn; [exact Hnd|].
    constructor; [|now apply IH]. intros Hin. apply Hni. eapply dkeys_dpop_incl, Hin.
  Qed.

  Lemma dpop_get_same d k : NoDup (dkeys d) -> dget (dpop d k) k = None.
  Proof.
    induction d as [|[k0 v0] d IH]; cbn; [reflexivity|]. intros H.
    inversion H as [|? ? Hni Hnd]; subst.
    destruct (String.eqb_spec k0 k) as [->|Hne0]; cbn.
    - now apply dget_None.
    - destruct (String.eqb_spec k0 k); [contradiction|now apply IH].
  Qed.

  Lemma dpop_noop d k : dget d k = None -> dpop d k = d.
  Proof.
    induction d as [|[k0 v0] d IH]; cbn; [reflexivity|].
    destruct (String.eqb_spec k0 k) as [->|Hne0]; [discriminate|].
    intros H. now rewrite IH.
  Qed.
End Dict.

Lemma smem_In x l : smem x l = true <-> In x l.
Proof.
  unfold smem. rewrite existsb_exists. split.
  - intros (y & Hy & E). apply String.eqb_eq in E. now subst.
  - intros H. exists x. split; [exact H|apply String.eqb_refl].
Qed.

Lemma smem_not_In x l : smem x l = false <-> ~ In x l.
Proof. rewrite <- smem_In. destruct (smem x l); split; congruence || tauto. Qed.
