(** Proofs about checkpoint files and watchers. *)
From Coq Require Import Decimal DecimalString DecimalNat.
From Verif Require Import Base BaseProofs Reports ReportsProofs Watcher.
Open Scope nat_scope.
Open Scope string_scope.
Open Scope list_scope.

(** *** Names *)
Lemma len_app : forall a b : string, String.length (a ++ b) = String.length a + String.length b.
Proof. induction a as [|c a IH]; intros b; cbn; [reflexivity|]. rewrite IH. reflexivity. Qed.
Lemma substring_prefix : forall a b : string, substring 0 (String.length a) (a ++ b) = a.
Proof. induction a as [|c a IH]; intros b; cbn; [destruct b; reflexivity|]. rewrite IH. reflexivity. Qed.
Lemma middle_file : forall n, middle (file_name n) = decimal n.
Proof.
  intros n. unfold middle, file_name. rewrite !len_app. cbn [String.length].
  replace (6 + (String.length (decimal n) + 4) - 10) with (String.length (decimal n)) by lia.
  change (substring 0 (String.length (decimal n)) (decimal n ++ ".pth") = decimal n). apply substring_prefix.
Qed.
Lemma to_uint_nonnil : forall n, Nat.to_uint n <> Nil.
Proof. intros n H. pose proof (Unsigned.of_to n) as E. rewrite H in E. cbn in E. subst n. discriminate H. Qed.
Lemma parse_file : forall n, parse_epoch (file_name n) = Ok n.
Proof.
  intros n. unfold parse_epoch. rewrite middle_file. unfold decimal. rewrite NilEmpty.usu.
  pose proof (to_uint_nonnil n) as N. pose proof (Unsigned.of_to n) as E.
  destruct (Nat.to_uint n); [congruence | rewrite E; reflexivity ..].
Qed.
Lemma file_name_inj : forall n m, file_name n = file_name m -> n = m.
Proof. intros n m H. pose proof (parse_file n) as A. rewrite H, parse_file in A. congruence. Qed.
Lemma parse_files : forall l, parse_all (map file_name l) = Ok l.
Proof. induction l as [|n l IH]; [reflexivity|]. cbn [map parse_all]. rewrite parse_file. cbn [bind]. rewrite IH. reflexivity. Qed.

Section P.
Context {M : Type} (state : nat -> M).

Definition saved_files (k e : nat) : directory M :=
  map (fun i => (file_name i, state i)) (filter (fun i => Nat.eqb (i mod k) 0) (seq 0 e)).
Lemma dset_fresh : forall (d : directory M) n m, ~ In n (dkeys d) -> dset d n m = d ++ [(n, m)].
Proof.
  intros d n m. induction d as [|[k v] d IH]; intros H; [reflexivity|]. cbn [dset].
  destruct (String.eqb_spec k n) as [->|D]; [exfalso; apply H; left; reflexivity|]. cbn [app]. f_equal. apply IH.
  intros X. apply H. right. exact X.
Qed.
Lemma saved_step : forall k e, 1 <= k -> update k (saved_files k e) e (state e) = Ok (saved_files k (S e)).
Proof.
  intros k e K. unfold update. replace (Nat.eqb k 0) with false by (symmetry; apply Nat.eqb_neq; lia).
  f_equal. unfold saved_files at 3. rewrite seq_S, filter_app, map_app. cbn [filter plus].
  destruct (Nat.eqb (e mod k) 0); [|cbn [map]; rewrite app_nil_r; reflexivity].
  cbn [map]. apply dset_fresh. intros X. unfold dkeys, saved_files in X. rewrite map_map in X. apply in_map_iff in X.
  destruct X as [i [E X]]. cbn [fst] in E. apply file_name_inj in E. subst i. apply filter_In in X. destruct X as [X _].
  apply in_seq in X. lia.
Qed.
Lemma saved_run : forall k, 1 <= k -> forall c e,
  watch_from k state (saved_files k e) e c = Ok (saved_files k (e + c)).
Proof.
  intros k K. induction c as [|c IH]; intros e; [rewrite Nat.add_0_r; reflexivity|].
  cbn [watch_from]. rewrite saved_step by exact K. cbn [bind]. rewrite IH. do 2 f_equal. lia.
Qed.

(** *** The last epoch saved *)
Lemma max_fold : forall l n, (forall x, In x l -> x <= fold_left Nat.max l n) /\ n <= fold_left Nat.max l n /\
  In (fold_left Nat.max l n) (n :: l).
Proof.
  induction l as [|x l IH]; intros n; cbn [fold_left].
  - split; [intros x []|]. split; [lia | left; reflexivity].
  - destruct (IH (Nat.max n x)) as [A [B C]]. split; [|split].
    + intros y [<-|H]; [lia | apply A; exact H].
    + lia.
    + destruct C as [C|C]; [|right; right; exact C]. rewrite <- C.
      destruct (Nat.max_spec n x) as [[_ ->]|[_ ->]]; [right; left | left]; reflexivity.
Qed.
Definition last_saved (k e : nat) : nat := k * ((e - 1) / k).
Lemma last_saved_in : forall k e, 1 <= k -> 1 <= e ->
  In (last_saved k e) (filter (fun i => Nat.eqb (i mod k) 0) (seq 0 e)).
Proof.
  intros k e K E. apply filter_In. unfold last_saved. split.
  - apply in_seq. pose proof (Nat.mul_div_le (e - 1) k ltac:(lia)). lia.
  - apply Nat.eqb_eq. rewrite Nat.mul_comm. apply Nat.mod_mul. lia.
Qed.
Lemma last_saved_max : forall k e, 1 <= k -> forall i, In i (filter (fun i => Nat.eqb (i mod k) 0) (seq 0 e)) ->
  i <= last_saved k e.
Proof.
  intros k e K i H. apply filter_In in H. destruct H as [H D]. apply in_seq in H. apply Nat.eqb_eq in D.
  unfold last_saved. pose proof (Nat.div_mod i k ltac:(lia)) as E. rewrite E, D.
  assert (i / k <= (e - 1) / k) by (apply Nat.div_le_mono; lia). nia.
Qed.
Lemma finish_saved : forall k e, 1 <= k -> 1 <= e ->
  finish (saved_files k e) = (Ok (file_name (last_saved k e)), [(file_name (last_saved k e), state (last_saved k e))]).
Proof.
  intros k e K E. unfold finish. unfold dkeys, saved_files at 1. rewrite map_map. cbn [fst].
  rewrite parse_files. pose proof (last_saved_in k e K E) as I. pose proof (last_saved_max k e K) as X.
  unfold saved_files. remember (filter (fun i => Nat.eqb (i mod k) 0) (seq 0 e)) as l eqn:L.
  assert (ND : NoDup l) by (rewrite L; apply NoDup_filter; apply seq_NoDup). clear L.
  destruct l as [|n l]; [contradiction|].
  assert (F : fold_left Nat.max l n = last_saved k e).
  { destruct (max_fold l n) as [A [B C]]. apply Nat.le_antisymm; [apply X; exact C|].
    destruct I as [<-|I]; [exact B | apply A; exact I]. }
  rewrite F. f_equal. clear F X. remember (last_saved k e) as m eqn:Em. clear Em.
  remember (n :: l) as ll eqn:Q. clear Q n l. induction ll as [|n l IH]; [contradiction|].
  assert (N : ~ In n l /\ NoDup l) by (inversion ND; split; assumption). destruct N as [N ND'].
  cbn [map filter fst]. destruct (String.eqb_spec (file_name n) (file_name m)) as [Q|Q].
  - apply file_name_inj in Q. subst n. f_equal. clear IH I ND.
    induction l as [|x l IH]; [reflexivity|]. cbn [map filter fst].
    destruct (String.eqb_spec (file_name x) (file_name m)) as [Q|Q].
    + apply file_name_inj in Q. subst x. exfalso. apply N. left. reflexivity.
    + apply IH; [intros H; apply N; right; exact H | inversion ND'; assumption].
  - destruct I as [->|I]; [contradiction|]. apply IH; assumption.
Qed.
Lemma watch_last : forall k e, 1 <= k -> 1 <= e ->
  watch k state [] e = Ok (file_name (last_saved k e), [(file_name (last_saved k e), state (last_saved k e))]).
Proof.
  intros k e K E. unfold watch. change (@nil (string * M)) with (saved_files k 0). rewrite saved_run by exact K.
  cbn [bind plus]. rewrite finish_saved by assumption. reflexivity.
Qed.
Lemma last_saved_spec : forall k e, 1 <= k -> 1 <= e ->
  last_saved k e mod k = 0 /\ last_saved k e < e /\ (forall i, i < e -> i mod k = 0 -> i <= last_saved k e).
Proof.
  intros k e K E. pose proof (last_saved_in k e K E) as I. apply filter_In in I. destruct I as [I D].
  apply in_seq in I. apply Nat.eqb_eq in D. split; [exact D|]. split; [lia|].
  intros i L Z. apply (last_saved_max k e K). apply filter_In. split; [apply in_seq; lia | apply Nat.eqb_eq; exact Z].
Qed.
Lemma last_saved_final : forall k e, 1 <= k -> 1 <= e -> (last_saved k e = e - 1 <-> (e - 1) mod k = 0).
Proof.
  intros k e K E. unfold last_saved. pose proof (Nat.div_mod (e - 1) k ltac:(lia)). lia.
Qed.
Lemma last_saved_one : forall e, 1 <= e -> last_saved 1 e = e - 1.
Proof. intros e E. apply last_saved_final; [lia | lia | apply Nat.mod_1_r]. Qed.
Lemma watch_zero : forall e d, 1 <= e -> watch 0 state d e = Err EDivisionByZero.
Proof. intros [|e] d E; [lia | reflexivity]. Qed.
End P.

(** *** Creation *)
Lemma period_one : forall c p, new_watcher c = Ok p -> p = 1.
Proof.
  intros c p H. unfold new_watcher in H. destruct (Nat.ltb _ _); [discriminate H|].
  destruct (existsb _ _); [discriminate H|]. destruct (negb _); [discriminate H|].
  destruct (existsb _ _); [discriminate H|]. injection H as <-. reflexivity.
Qed.
Lemma period_saver : forall c p, new_saver c = Ok p -> p = 1.
Proof. intros c p H. unfold new_saver in H. destruct (c_keywords c); [|discriminate H]. exact (period_one c p H). Qed.
Lemma no_option : forall c k, In k (c_keywords c) -> ~ In k parameters -> exists e, new_watcher c = Err e.
Proof.
  intros c k I N. unfold new_watcher. destruct (Nat.ltb _ _); [eauto|].
  destruct (existsb _ _); [eauto|]. destruct (negb _); [eauto|].
  assert (X : existsb (fun k => negb (smem k parameters)) (c_keywords c) = true).
  { apply existsb_exists. exists k. split; [exact I|]. unfold smem.
    destruct (existsb (String.eqb k) parameters) eqn:Q; [|reflexivity]. apply existsb_exists in Q.
    destruct Q as [x [A B]]. apply String.eqb_eq in B. subst x. contradiction. }
  rewrite X. eauto.
Qed.
Lemma no_watcher : forall lookup t c, exists e, make_watcher package_names lookup t c = Err e.
Proof. intros lookup t c. unfold make_watcher. destruct (String.eqb t "none"); [eauto|]. cbn. eauto. Qed.
Lemma saver_by_name : forall names lookup t c, In "model" (c_keywords c) -> lookup t = Some new_saver ->
  exists e, make_watcher names lookup t c = Err e.
Proof.
  intros names lookup t c I L. unfold make_watcher. destruct (String.eqb t "none"); [eauto|].
  destruct (negb _); [eauto|]. rewrite L. unfold new_saver. cbn [c_keywords]. destruct (c_keywords c); [contradiction | eauto].
Qed.
Lemma period_always_one : forall c p, new_watcher c = Ok p \/ new_saver c = Ok p -> p = 1.
Proof. intros c p [H|H]; [exact (period_one c p H) | exact (period_saver c p H)]. Qed.
Lemma lost_state : forall (M : Type) (state : nat -> M) k e, 1 <= k -> 1 <= e -> (e - 1) mod k <> 0 ->
  exists n, n < e - 1 /\ watch k state [] e = Ok (file_name n, [(file_name n, state n)]).
Proof.
  intros M state k e K E N. exists (last_saved k e). split; [|apply watch_last; assumption].
  destruct (last_saved_spec k e K E) as [_ [L _]].
  assert (last_saved k e <> e - 1) by (intros X; apply N; apply (last_saved_final k e K E); exact X). lia.
Qed.
Lemma checkpoint_left : forall (M : Type) (state : nat -> M) k e, 1 <= k -> 1 <= e ->
  exists n, watch k state [] e = Ok (file_name n, [(file_name n, state n)]) /\
    n mod k = 0 /\ n < e /\ (forall i, i < e -> i mod k = 0 -> i <= n).
Proof. intros M state k e K E. exists (last_saved k e). split; [apply watch_last; assumption | apply last_saved_spec; assumption]. Qed.
Lemma constructed_watch : forall (M : Type) (state : nat -> M) c k e, new_watcher c = Ok k \/ new_saver c = Ok k -> 1 <= e ->
  watch k state [] e = Ok (file_name (e - 1), [(file_name (e - 1), state (e - 1))]).
Proof.
  intros M state c k e H E. rewrite (period_always_one c k H), watch_last by lia. rewrite last_saved_one by exact E. reflexivity.
Qed.
Lemma parse_all_foreign l f : In f l -> parse_epoch f = Err EValueError -> parse_all l = Err EValueError.
Proof.
  induction l as [|s l IH]; [intros []|]. intros [->|I] E; cbn [parse_all].
  - rewrite E. reflexivity.
  - unfold parse_epoch. destruct (NilEmpty.uint_of_string (middle s)) as [[]|]; try reflexivity; cbn [bind]; rewrite (IH I E); reflexivity.
Qed.
Lemma finish_foreign (M : Type) (d : dict M) f : In f (dkeys d) ->
  NilEmpty.uint_of_string (substring 6 (String.length f - 10) f) = None -> finish d = (Err EValueError, d).
Proof.
  intros I E. unfold finish. rewrite (parse_all_foreign _ f I); [reflexivity|]. unfold parse_epoch, middle. rewrite E. reflexivity.
Qed.
