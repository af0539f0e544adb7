(** Which views are predicted from which (C125). *)
From Verif Require Import Base BaseProofs MultiView KnownSpec.

Section Known.
  Variable known : list (vkey * option nat).
  Notation lookup k := (find (fun p : vkey * option nat => match fst p with KName k' => String.eqb k k' | KNum _ => false end) known).

  Definition points (k : string) : option nat := match lookup k with Some (_, Some m) => Some m | _ => None end.

  Lemma known_points_step k names acc :
    known_points known (k :: names) acc =
    match points k with
    | Some m => match acc with
                | None => known_points known names (Some m)
                | Some m' => if Nat.eqb m' m then known_points known names acc else Err EAssertionError
                end
    | None => known_points known names acc
    end.
  Proof. cbn [known_points]. unfold points. destruct (lookup k) as [[a [m|]]|]; reflexivity. Qed.

  Lemma known_points_some names : forall m,
    known_points known names (Some m) = Ok (Some m) /\ (forall k m', In k names -> points k = Some m' -> m' = m) \/
    known_points known names (Some m) = Err EAssertionError /\ (exists k m', In k names /\ points k = Some m' /\ m' <> m).
  Proof.
    induction names as [|k names IH]; intros m; [left; split; [reflexivity|intros k m' []]|].
    rewrite known_points_step. destruct (points k) as [m'|] eqn:E.
    - destruct (Nat.eqb_spec m m') as [->|Hne].
      + destruct (IH m') as [[A B]|[A (k0 & m0 & B & C & D)]]; [left|right]; (split; [exact A|]).
        * intros k0 m0 [<-|Hin] Hm; [congruence|eauto].
        * exists k0, m0. auto with datatypes.
      + right. split; [reflexivity|]. exists k, m'. auto with datatypes.
    - destruct (IH m) as [[A B]|[A (k0 & m0 & B & C & D)]]; [left|right]; (split; [exact A|]).
      + intros k0 m0 [<-|Hin] Hm; [congruence|eauto].
      + exists k0, m0. auto with datatypes.
  Qed.

  Lemma known_points_none names :
    (known_points known names None = Ok None /\ forall k, In k names -> points k = None) \/
    (exists m, known_points known names None = Ok (Some m) /\ (exists k, In k names /\ points k = Some m) /\
               forall k m', In k names -> points k = Some m' -> m' = m) \/
    (known_points known names None = Err EAssertionError /\
     exists k k' m m', In k names /\ In k' names /\ points k = Some m /\ points k' = Some m' /\ m' <> m).
  Proof.
    induction names as [|k names IH]; [left; split; [reflexivity|intros k []]|].
    rewrite known_points_step. destruct (points k) as [m|] eqn:E.
    - right. destruct (known_points_some names m) as [[A B]|[A (k0 & m0 & B & C & D)]].
      + left. exists m. split; [exact A|]. split; [exists k; auto with datatypes|].
        intros k0 m0 [<-|Hin] Hm; [congruence|eauto].
      + right. split; [exact A|]. exists k, k0, m, m0. auto 6 with datatypes.
    - destruct IH as [[A B]|[(m & A & (k0 & B & C) & D)|(A & k0 & k1 & m0 & m1 & B & C & D & E' & G)]].
      + left. split; [exact A|]. intros k0 [<-|Hin]; auto.
      + right. left. exists m. split; [exact A|]. split; [exists k0; auto with datatypes|].
        intros k1 m1 [<-|Hin] Hm; [congruence|eauto].
      + right. right. split; [exact A|]. exists k0, k1, m0, m1. auto 6 with datatypes.
  Qed.

  Hypothesis keys : NoDup (map fst known).

  Lemma lookup_in k v : In (KName k, v) known -> exists a, lookup k = Some (a, v).
  Proof.
    revert keys. induction known as [|[a b] l IH]; intros Hd Hin; [destruct Hin|].
    cbn [map fst find] in *. destruct Hin as [H|H].
    - injection H as -> ->. rewrite String.eqb_refl. eauto.
    - apply NoDup_cons_iff in Hd. destruct Hd as [Ha Hd]. destruct a as [a|n]; [|now apply IH].
      destruct (String.eqb_spec k a) as [->|Hne]; [|now apply IH].
      exfalso. apply Ha. change (KName a) with (fst (KName a, v)). now apply in_map.
  Qed.
  Lemma lookup_from k a v : lookup k = Some (a, v) -> In (KName k, v) known.
  Proof.
    intros H. apply find_some in H. destruct H as [H1 H2]. cbn in H2. destruct a as [a|n]; [|discriminate].
    apply String.eqb_eq in H2. now subst a.
  Qed.
  Lemma points_spec k m : points k = Some m <-> given_points known k m.
  Proof.
    unfold points, given_points. split.
    - destruct (lookup k) as [[a [m'|]]|] eqn:E; try discriminate. intros [= <-]. now apply lookup_from in E.
    - intros H. destruct (lookup_in _ _ H) as [a ->]. reflexivity.
  Qed.
End Known.

Lemma known_name_spec known k : negb (known_name known k) = true <-> missing known k.
Proof.
  rewrite Bool.negb_true_iff. unfold known_name, missing. split.
  - intros H v Hin. assert (E : existsb (fun p : vkey * option nat => match fst p with KName k' => String.eqb k k' | KNum _ => false end) known = true).
    { apply existsb_exists. exists (KName k, v). split; [exact Hin|]. cbn. apply String.eqb_refl. }
    congruence.
  - intros H. destruct (existsb _ known) eqn:E; [|reflexivity]. apply existsb_exists in E.
    destruct E as ([[a|n] v] & Hin & Ha); cbn in Ha; [|discriminate]. apply String.eqb_eq in Ha. subst a.
    exfalso. exact (H v Hin).
Qed.

Lemma project_exactly s known out : NoDup (map fst known) ->
  (project_names s known = Ok out <->
   (exists m, points_agree (dkeys (m_views s)) known m) /\
   exists b, out = filter b (dkeys (m_views s)) /\ forall k, b k = true <-> missing known k).
Proof.
  intros Hd. unfold project_names. pose proof (points_spec known Hd) as Hp.
  destruct (known_points_none known (dkeys (m_views s))) as [[A B]|[(m & A & (k0 & B & C) & D)|(A & k0 & k1 & m0 & m1 & B & C & D & E & G)]];
    rewrite A.
  - split; [discriminate|]. intros [(m & (k & Hk & Hg) & _) _]. apply Hp in Hg. rewrite B in Hg by exact Hk. discriminate.
  - split.
    + intros [= <-]. split.
      * exists m. split; [exists k0; split; [exact B|now apply Hp]|]. intros k m' Hk Hg. apply (D k); [exact Hk|now apply Hp].
      * eexists. split; [reflexivity|]. intros k. apply known_name_spec.
    + intros [_ (b & -> & Hb)]. f_equal. unfold to_predict. apply filter_ext. intros k.
      destruct (negb (known_name known k)) eqn:E1, (b k) eqn:E2; try reflexivity; exfalso.
      * apply known_name_spec, Hb in E1. congruence.
      * apply Hb, known_name_spec in E2. congruence.
  - split; [discriminate|]. intros [(m & _ & Hu) _]. exfalso. apply G.
    apply Hp in D, E. rewrite (Hu _ _ C E), (Hu _ _ B D). reflexivity.
Qed.

Lemma project_error s known e : project_names s known = Err e -> e = EAssertionError.
Proof.
  unfold project_names.
  destruct (known_points_none known (dkeys (m_views s))) as [[A B]|[(m & A & _)|(A & _)]]; rewrite A; congruence.
Qed.
