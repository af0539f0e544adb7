(** Proofs about the reports of a model. *)
From Coq Require Import Decimal DecimalString DecimalNat.
From Verif Require Import Base BaseProofs Reports.
Open Scope nat_scope.
Open Scope string_scope.
Open Scope list_scope.

Fixpoint no_space (s : string) : Prop :=
  match s with EmptyString => True | String c s' => c <> " "%char /\ no_space s' end.
Lemma digits_no_space : forall u, no_space (NilEmpty.string_of_uint u).
Proof. induction u; cbn; (split; [discriminate | assumption]) || exact I. Qed.
Lemma decimal_inj : forall n m, decimal n = decimal m -> n = m.
Proof.
  intros n m H. unfold decimal in H. apply Unsigned.to_uint_inj.
  pose proof (NilEmpty.usu (Nat.to_uint n)) as A. pose proof (NilEmpty.usu (Nat.to_uint m)) as B.
  rewrite H in A. rewrite A in B. congruence.
Qed.
Lemma split_space : forall s s' a b, no_space s -> no_space s' ->
  (s ++ String " " a)%string = (s' ++ String " " b)%string -> s = s' /\ a = b.
Proof.
  induction s as [|c s IH]; intros [|c' s'] a b N N' E; cbn in E.
  - injection E as E. split; [reflexivity | exact E].
  - injection E as E1 E2. destruct N' as [N' _]. congruence.
  - injection E as E1 E2. destruct N as [N _]. congruence.
  - injection E as E1 E2. destruct N as [_ N]. destruct N' as [_ N']. destruct (IH s' a b N N' E2) as [-> ->]. subst c'. split; reflexivity.
Qed.
Lemma append_assoc : forall a b c : string, ((a ++ b) ++ c)%string = (a ++ (b ++ c))%string.
Proof. induction a as [|x a IH]; intros b c; [reflexivity|]. cbn. rewrite IH. reflexivity. Qed.
Lemma append_inj : forall a b c : string, (a ++ b)%string = (a ++ c)%string -> b = c.
Proof. induction a as [|x a IH]; intros b c H; [exact H|]. cbn in H. injection H as H. exact (IH b c H). Qed.
Lemma prefix_num : forall n c k n' c' k', (level_prefix n c ++ k)%string = (level_prefix n' c' ++ k')%string -> n = n'.
Proof.
  intros n c k n' c' k' H. unfold level_prefix in H. rewrite !append_assoc in H. apply append_inj in H.
  destruct (split_space _ _ _ _ (digits_no_space _) (digits_no_space _) H) as [E _]. exact (decimal_inj _ _ E).
Qed.

Section P.
Context {V : Type}.
Implicit Types (d : dict V).

Lemma merged_other : forall (d' : dict V) d k, ~ In k (map fst d') -> dget (merged d d') k = dget d k.
Proof.
  unfold merged. induction d' as [|[k' v] d' IH]; intros d k H; [reflexivity|]. cbn [fold_left fst snd map In] in *.
  rewrite IH by tauto. apply dset_get_other. intros E. apply H. left. congruence.
Qed.
Lemma merged_same : forall (d' : dict V) d k, NoDup (map fst d') -> In k (map fst d') -> dget (merged d d') k = dget d' k.
Proof.
  unfold merged. induction d' as [|[k' v] d' IH]; intros d k N H; [contradiction|]. cbn [fold_left fst snd map] in *.
  inversion N as [|a b Na Nb]. subst a b. cbn [dget].
  destruct (String.eqb_spec k' k) as [->|D].
  - pose proof (merged_other d' (dset d k v) k Na) as M. unfold merged in M. rewrite M. apply dset_get_same.
  - apply IH; [exact Nb|]. destruct H as [H|H]; [contradiction | exact H].
Qed.
Lemma prefixed_get : forall (p : string) (d : dict V) k, dget (map (fun kv => ((p ++ fst kv)%string, snd kv)) d) (p ++ k)%string = dget d k.
Proof.
  intros p d k. induction d as [|[k' v] d IH]; [reflexivity|]. cbn [map fst snd dget].
  destruct (String.eqb_spec k' k) as [->|D]; [rewrite String.eqb_refl; reflexivity|].
  destruct (String.eqb_spec (p ++ k') (p ++ k)) as [E|_]; [|exact IH]. apply append_inj in E. contradiction.
Qed.
Lemma prefixed_keys : forall (p : string) (d : dict V), map fst (map (fun kv => ((p ++ fst kv)%string, snd kv)) d) = map (fun k => (p ++ k)%string) (map fst d).
Proof. intros p d. rewrite !map_map. reflexivity. Qed.
Lemma prefixed_nodup : forall (p : string) (l : list string), NoDup l -> NoDup (map (fun k => (p ++ k)%string) l).
Proof.
  intros p l N. induction N as [|x l X N IH]; [constructor|]. cbn [map]. constructor; [|exact IH].
  intros I. apply in_map_iff in I. destruct I as [y [E I]]. apply append_inj in E. subst y. contradiction.
Qed.
Lemma report_later : forall (ls : list (string * dict V)) num val n c k, n < num ->
  dget (report_from num val ls) (level_prefix n c ++ k)%string = dget val (level_prefix n c ++ k)%string.
Proof.
  induction ls as [|[cls own] ls IH]; intros num val n c k L; [reflexivity|]. cbn [report_from].
  rewrite IH by lia. apply merged_other. rewrite prefixed_keys. intros I. apply in_map_iff in I. destruct I as [x [E _]].
  apply prefix_num in E. lia.
Qed.
Lemma report_from_get : forall (ls : list (string * dict V)) num val i cls own k,
  nth_error ls i = Some (cls, own) -> NoDup (map fst own) ->
  (forall c x, dget val (level_prefix (num + i) c ++ x)%string = None) ->
  dget (report_from num val ls) (level_prefix (num + i) cls ++ k)%string = dget own k.
Proof.
  induction ls as [|[c0 o0] ls IH]; intros num val i cls own k H N F; [destruct i; discriminate H|].
  cbn [report_from]. destruct i as [|i].
  - injection H as -> ->. rewrite Nat.add_0_r in *. rewrite report_later by lia.
    destruct (in_dec string_dec k (map fst own)) as [I|I].
    + rewrite merged_same.
      * apply prefixed_get.
      * rewrite prefixed_keys. apply prefixed_nodup. exact N.
      * rewrite prefixed_keys. apply (in_map (fun k => (level_prefix num cls ++ k)%string)). exact I.
    + rewrite merged_other.
      * rewrite F. symmetry. clear -I. induction own as [|[k' v] own IH]; [reflexivity|]. cbn [dget map fst In] in *.
        destruct (String.eqb_spec k' k) as [->|D]; [exfalso; tauto | apply IH; tauto].
      * rewrite prefixed_keys. intros J. apply in_map_iff in J. destruct J as [x [E J]]. apply append_inj in E. subst x. contradiction.
  - rewrite <- Nat.add_succ_comm. apply IH; [exact H | exact N|].
    intros c x. rewrite merged_other; [rewrite Nat.add_succ_comm; apply F|].
    rewrite prefixed_keys. intros J. apply in_map_iff in J. destruct J as [y [E _]]. apply prefix_num in E. lia.
Qed.
Lemma report_get : forall (ls : list (string * dict V)) i cls own k,
  nth_error ls i = Some (cls, own) -> NoDup (map fst own) ->
  dget (report ls) (level_prefix i cls ++ k)%string = dget own k.
Proof. intros ls i cls own k H N. apply (report_from_get ls 0 [] i cls own k H N). intros c x. reflexivity. Qed.

Lemma dset_keys_in : forall d k v x, In x (map fst (dset d k v)) -> x = k \/ In x (map fst d).
Proof.
  intros d k v x. induction d as [|[k' w] d IH]; cbn [dset map fst In]; [intuition congruence|].
  destruct (String.eqb k' k); cbn [map fst In]; intuition congruence.
Qed.
Lemma merged_keys_in : forall (d' : dict V) d x, In x (map fst (merged d d')) -> In x (map fst d) \/ In x (map fst d').
Proof.
  unfold merged. induction d' as [|[k v] d' IH]; intros d x H; [left; exact H|]. cbn [fold_left fst snd map In] in *.
  destruct (IH _ _ H) as [I|I]; [|tauto]. apply dset_keys_in in I. intuition congruence.
Qed.
Lemma report_from_keys : forall (ls : list (string * dict V)) num val x, In x (map fst (report_from num val ls)) ->
  In x (map fst val) \/ exists i cls own k, nth_error ls i = Some (cls, own) /\ In k (map fst own) /\ x = (level_prefix (num + i) cls ++ k)%string.
Proof.
  induction ls as [|[c o] ls IH]; intros num val x H; [left; exact H|]. cbn [report_from] in H.
  destruct (IH _ _ _ H) as [I|[i [cls [own [k [E [I X]]]]]]].
  - apply merged_keys_in in I. destruct I as [I|I]; [left; exact I|]. right.
    rewrite prefixed_keys in I. apply in_map_iff in I. destruct I as [k [E I]].
    exists 0, c, o, k. rewrite Nat.add_0_r. repeat split; [exact I | congruence].
  - right. exists (S i), cls, own, k. rewrite <- Nat.add_succ_comm. repeat split; assumption.
Qed.
Lemma report_keys : forall (ls : list (string * dict V)) x, In x (map fst (report ls)) ->
  exists i cls own k, nth_error ls i = Some (cls, own) /\ In k (map fst own) /\ x = (level_prefix i cls ++ k)%string.
Proof. intros ls x H. destruct (report_from_keys ls 0 [] x H) as [[]|H']. exact H'. Qed.
Lemma prefix_key : forall i cls k, (level_prefix i cls ++ k)%string = ("[LEVEL" ++ decimal i ++ " " ++ cls ++ "] " ++ k)%string.
Proof. intros i cls k. unfold level_prefix. rewrite !append_assoc. reflexivity. Qed.
Lemma report_get_key : forall (ls : list (string * dict V)) i cls own k,
  nth_error ls i = Some (cls, own) -> NoDup (map fst own) ->
  dget (report ls) ("[LEVEL" ++ decimal i ++ " " ++ cls ++ "] " ++ k)%string = dget own k.
Proof. intros ls i cls own k H N. rewrite <- prefix_key. apply report_get; assumption. Qed.
Lemma report_keys_key : forall (ls : list (string * dict V)) x, In x (map fst (report ls)) ->
  exists i cls own k, nth_error ls i = Some (cls, own) /\ In k (map fst own) /\
    x = ("[LEVEL" ++ decimal i ++ " " ++ cls ++ "] " ++ k)%string.
Proof.
  intros ls x H. destruct (report_keys ls x H) as [i [cls [own [k [A [C ->]]]]]].
  exists i, cls, own, k. split; [exact A|]. split; [exact C|]. apply prefix_key.
Qed.
End P.
