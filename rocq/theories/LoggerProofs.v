(** Proofs about logging levels. *)
From Verif Require Import Base BaseProofs Logger LoggerSpec.
Open Scope string_scope.
Open Scope list_scope.

Fixpoint logged_rect' (P : logged -> Prop)
  (H : forall cls given children, Forall P children -> P (Logged cls given children)) (o : logged) : P o :=
  match o with Logged cls given children =>
    H cls given children ((fix all (l : list logged) : Forall P l :=
      match l with [] => Forall_nil P | c :: l' => Forall_cons c (logged_rect' P H c) (all l') end) children)
  end.
Fixpoint put_list (s : logging) (cs : list logged) (l : Z) : logging :=
  match cs with [] => s | c :: cs' => put_list (put_all s c l) cs' l end.
Lemma put_all_eq : forall s cls given children l,
  put_all s (Logged cls given children) l = put_list (put_level s (log_name (Logged cls given children)) l) children l.
Proof.
  intros s cls given children l. cbn [put_all]. generalize (put_level s (log_name (Logged cls given children)) l). clear s.
  induction children as [|c cs IH]; intros s; [reflexivity|]. cbn [put_list]. apply IH.
Qed.
Lemma level_put : forall s n m l, level_of (put_level s n l) m = if String.eqb n m then l else level_of s m.
Proof.
  intros s n m l. unfold level_of, put_level. cbn [lg_levels]. destruct (String.eqb_spec n m) as [->|D].
  - rewrite dset_get_same. reflexivity.
  - rewrite dset_get_other by congruence. reflexivity.
Qed.
(** Setting: the names below get the level, the others keep theirs. *)
Lemma put_all_level : forall l o s n,
  level_of (put_all s o l) n = (if existsb (String.eqb n) (map log_name (below o)) then l else level_of s n).
Proof.
  intros l. induction o as [cls given children IH] using logged_rect'. intros s n. rewrite put_all_eq.
  assert (X : forall cs, Forall (fun o => forall s n,
             level_of (put_all s o l) n = (if existsb (String.eqb n) (map log_name (below o)) then l else level_of s n)) cs ->
           forall s, level_of (put_list s cs l) n =
             (if existsb (String.eqb n) (map log_name (flat_map below cs)) then l else level_of s n)).
  { intros cs. induction cs as [|c cs IHc]; intros F s'; [reflexivity|].
    assert (A : Forall (fun o => forall s n,
             level_of (put_all s o l) n = (if existsb (String.eqb n) (map log_name (below o)) then l else level_of s n)) cs)
      by (inversion F; assumption).
    assert (B : forall s n, level_of (put_all s c l) n = (if existsb (String.eqb n) (map log_name (below c)) then l else level_of s n))
      by (inversion F; assumption).
    cbn [put_list flat_map]. rewrite (IHc A), B, map_app, existsb_app.
    destruct (existsb (String.eqb n) (map log_name (flat_map below cs))), (existsb (String.eqb n) (map log_name (below c))); reflexivity. }
  rewrite (X children IH), level_put. cbn [below map existsb]. rewrite (String.eqb_sym n).
  destruct (existsb (String.eqb n) (map log_name (flat_map below children))); [rewrite orb_true_r; reflexivity|].
  rewrite orb_false_r. reflexivity.
Qed.
Lemma put_all_default : forall l o s, lg_default (put_all s o l) = lg_default s.
Proof.
  intros l. induction o as [cls given children IH] using logged_rect'. intros s. rewrite put_all_eq.
  assert (X : forall cs, Forall (fun o => forall s, lg_default (put_all s o l) = lg_default s) cs ->
           forall s, lg_default (put_list s cs l) = lg_default s).
  { intros cs. induction cs as [|c cs IHc]; intros F s'; [reflexivity|].
    assert (A : Forall (fun o => forall s, lg_default (put_all s o l) = lg_default s) cs) by (inversion F; assumption).
    assert (B : forall s, lg_default (put_all s c l) = lg_default s) by (inversion F; assumption).
    cbn [put_list]. rewrite (IHc A). apply B. }
  rewrite (X children IH). reflexivity.
Qed.
Lemma existsb_name : forall n l, existsb (String.eqb n) l = true <-> In n l.
Proof.
  intros n l. split.
  - intros H. apply existsb_exists in H. destruct H as [x [I E]]. apply String.eqb_eq in E. subst x. exact I.
  - intros H. apply existsb_exists. exists n. split; [exact H | apply String.eqb_refl].
Qed.
Lemma set_read : forall s o l x, In x (below o) -> get_level (set_level s o l) x = resolve s l.
Proof.
  intros s o l x H. unfold get_level, set_level. rewrite put_all_level.
  replace (existsb (String.eqb (log_name x)) (map log_name (below o))) with true; [reflexivity|].
  symmetry. apply existsb_name. apply in_map. exact H.
Qed.
Lemma self_below : forall o, In o (below o).
Proof. intros [cls given children]. left. reflexivity. Qed.
Lemma step_other : forall s op x, (forall o, In o (addressed op) -> log_name o <> log_name x) ->
  get_level (lstep s op) x = get_level s x.
Proof.
  intros s op x H.
  assert (P : forall s o l, (forall y, In y (below o) -> log_name y <> log_name x) -> get_level (put_all s o l) x = get_level s x).
  { intros s' o l Q. unfold get_level. rewrite put_all_level.
    destruct (existsb (String.eqb (log_name x)) (map log_name (below o))) eqn:E; [|reflexivity].
    apply existsb_name in E. apply in_map_iff in E. destruct E as [y [E I]]. exfalso. exact (Q y I E). }
  destruct op as [o l|o l|l]; cbn [lstep addressed] in *.
  - unfold new_object, get_level. rewrite level_put. destruct (String.eqb_spec (log_name o) (log_name x)) as [E|E]; [|reflexivity].
    exfalso. exact (H o (or_introl eq_refl) E).
  - apply P. exact H.
  - unfold set_default. etransitivity; [apply P; exact H | reflexivity].
Qed.
Lemma run_other : forall ops s x, (forall op o, In op ops -> In o (addressed op) -> log_name o <> log_name x) ->
  get_level (lrun s ops) x = get_level s x.
Proof.
  induction ops as [|op ops IH]; intros s x H; [reflexivity|]. cbn [lrun fold_left].
  etransitivity; [apply (IH (lstep s op)); intros o y I J; exact (H o y (or_intror I) J)|].
  apply step_other. intros o I. exact (H op o (or_introl eq_refl) I).
Qed.
(** Objects with the same name always have the same level. *)
Lemma shared_level : forall s a b, log_name a = log_name b -> get_level s a = get_level s b.
Proof. intros s a b E. unfold get_level. rewrite E. reflexivity. Qed.
Lemma shared_set : forall s a b l, log_name a = log_name b -> get_level (set_level s a l) b = resolve s l.
Proof. intros s a b l E. rewrite <- (shared_level _ a b E). apply set_read. apply self_below. Qed.
Lemma shared_new : forall s a b l, log_name a = log_name b -> get_level (new_object s a l) b = resolve s l.
Proof. intros s a b l E. unfold get_level, new_object. rewrite level_put, E, String.eqb_refl. reflexivity. Qed.
(** The default level. *)
Lemma default_read : forall s l, get_default (set_default s l) = l.
Proof. intros s l. unfold get_default, set_default, set_level. rewrite put_all_default. reflexivity. Qed.
Lemma default_kept : forall s op, (forall l, op <> LDefault l) -> get_default (lstep s op) = get_default s.
Proof.
  intros s [o l|o l|l] H; cbn [lstep]; [reflexivity | apply put_all_default | exfalso; exact (H l eq_refl)].
Qed.
Lemma default_new : forall s l o, get_level (new_object (set_default s l) o None) o = l.
Proof. intros s l o. rewrite shared_new by reflexivity. cbn [resolve]. apply default_read. Qed.
Lemma default_existing : forall s l o, log_name o <> log_name global_logger -> get_level (set_default s l) o = get_level s o.
Proof. intros s l o N. apply (step_other s (LDefault l)). intros x [<-|[]] E. congruence. Qed.
Lemma default_run : forall ops s, (forall op l, In op ops -> op <> LDefault l) -> get_default (lrun s ops) = get_default s.
Proof.
  induction ops as [|op ops IH]; intros s H; [reflexivity|]. cbn [lrun fold_left].
  etransitivity; [apply (IH (lstep s op)); intros o l I; exact (H o l (or_intror I))|].
  apply default_kept. intros l. exact (H op l (or_introl eq_refl)).
Qed.

(** Names of objects of different classes. *)
Lemma append_inj : forall n a b : string, (n ++ a)%string = (n ++ b)%string -> a = b.
Proof. induction n as [|x n IH]; intros a b E; [exact E|]. cbn in E. injection E as E. apply IH. exact E. Qed.
Lemma names_apart : forall cls cls' given ch ch', cls <> cls' -> (cls <> "Logger" /\ cls' <> "Logger" \/ given = None)%string ->
  log_name (Logged cls given ch) <> log_name (Logged cls' given ch').
Proof.
  intros cls cls' given ch ch' D H E. unfold log_name in E. destruct given as [n|]; [|exact (D E)].
  destruct H as [[A B]|H]; [|discriminate H].
  rewrite (proj2 (String.eqb_neq _ _) A), (proj2 (String.eqb_neq _ _) B) in E.
  apply append_inj in E. apply append_inj in E. exact (D E).
Qed.
Lemma classes_apart : forall s cls cls' given ch ch' l, cls <> cls' -> (cls <> "Logger" /\ cls' <> "Logger" \/ given = None)%string ->
  get_level (set_level s (Logged cls given []) l) (Logged cls' given ch) = get_level s (Logged cls' given ch) /\
  get_level (new_object s (Logged cls given ch') l) (Logged cls' given ch) = get_level s (Logged cls' given ch).
Proof.
  intros s cls cls' given ch ch' l D H. split.
  - apply (step_other s (LSet (Logged cls given []) l)). intros o [<-|[]]. apply names_apart; assumption.
  - apply (step_other s (LNew (Logged cls given ch') l)). intros o [<-|[]]. apply names_apart; assumption.
Qed.
Lemma class_level : forall s cls ch ch' l,
  get_level (new_object s (Logged cls None ch) l) (Logged cls None ch') = resolve s l.
Proof. intros s cls ch ch' l. apply shared_new. reflexivity. Qed.
