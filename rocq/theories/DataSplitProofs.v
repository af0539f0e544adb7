(** Proofs about the splits of a data set. *)
From Coq Require Import Permutation.
From Verif Require Import Base DataSplit DataSplitSpec.
Open Scope nat_scope.
Open Scope list_scope.

Lemma slice_nat : forall (A : Type) (l : list A) p s, slice l (Z.of_nat p) (Z.of_nat p + Z.of_nat s) = firstn s (skipn p l).
Proof.
  intros A l p s. unfold slice, clip.
  replace (Z.of_nat p <? 0)%Z with false by (symmetry; apply Z.ltb_ge; lia).
  replace (Z.of_nat p + Z.of_nat s <? 0)%Z with false by (symmetry; apply Z.ltb_ge; lia).
  rewrite <- Nat2Z.inj_add, !Nat2Z.id. destruct (Nat.le_gt_cases p (List.length l)) as [L|L].
  - rewrite (Nat.min_l p) by exact L. destruct (Nat.le_gt_cases (p + s) (List.length l)) as [Q|Q].
    + rewrite Nat.min_l by exact Q. f_equal. lia.
    + rewrite Nat.min_r by lia. rewrite !firstn_all2; [reflexivity | rewrite skipn_length; lia | rewrite skipn_length; lia].
  - rewrite !(Nat.min_r _ (List.length l)) by lia. rewrite (skipn_all2 (n := p)) by lia.
    rewrite skipn_all. rewrite !firstn_nil. reflexivity.
Qed.

(** Sizes as natural numbers. *)
Definition nats (sizes : list Z) : list nat := map Z.to_nat sizes.
Fixpoint parts_from {A : Type} (l : list A) (sizes : list nat) : list (list A) :=
  match sizes with [] => [] | s :: ss => firstn s l :: parts_from (skipn s l) ss end.
Lemma skipn_add : forall (A : Type) (l : list A) a b, skipn a (skipn b l) = skipn (b + a) l.
Proof.
  intros A l a b. revert l. induction b as [|b IH]; intros l; [reflexivity|]. destruct l as [|x l]; [apply skipn_nil | apply IH].
Qed.
Lemma split_parts : forall (A : Type) (l : list A) sizes p, non_negative sizes ->
  split_from l (Z.of_nat p) sizes = parts_from (skipn p l) (nats sizes).
Proof.
  intros A l sizes. induction sizes as [|z sizes IH]; intros p N; [reflexivity|].
  assert (N' : non_negative sizes) by (intros x H; apply N; right; exact H).
  assert (Z0 : (0 <= z)%Z) by (apply N; left; reflexivity).
  cbn [split_from nats map parts_from]. destruct (Z.eqb_spec z 0) as [->|D].
  - cbn [Z.to_nat firstn skipn]. f_equal. apply IH. exact N'.
  - remember (Z.to_nat z) as s eqn:S. assert (E : z = Z.of_nat s) by lia. rewrite E. rewrite slice_nat. f_equal.
    rewrite <- Nat2Z.inj_add. rewrite IH by exact N'. rewrite skipn_add. reflexivity.
Qed.
Lemma parts_concat : forall (A : Type) sizes (l : list A), List.concat (parts_from l sizes) = firstn (list_sum sizes) l.
Proof.
  intros A sizes. induction sizes as [|s sizes IH]; intros l; [reflexivity|].
  cbn [parts_from List.concat list_sum fold_right]. rewrite IH. fold (list_sum sizes). revert l. induction s as [|s IHs]; intros l; [reflexivity|].
  destruct l as [|x l]; [cbn; rewrite firstn_nil; reflexivity|]. cbn [firstn skipn app plus]. f_equal. apply IHs.
Qed.
Lemma parts_sizes : forall (A : Type) sizes (l : list A), list_sum sizes <= List.length l ->
  map (@List.length A) (parts_from l sizes) = sizes.
Proof.
  intros A sizes. induction sizes as [|s sizes IH]; intros l L; [reflexivity|].
  cbn [list_sum fold_right] in L. fold (list_sum sizes) in L. cbn [parts_from map]. rewrite firstn_length_le by lia. f_equal.
  apply IH. rewrite skipn_length. lia.
Qed.
Lemma requested_nats : forall sizes, non_negative sizes -> requested sizes = Z.of_nat (list_sum (nats sizes)).
Proof.
  induction sizes as [|z sizes IH]; intros N; [reflexivity|]. cbn [requested fold_right nats map list_sum].
  fold (requested sizes) (nats sizes) (list_sum (nats sizes)).
  assert ((0 <= z)%Z) by (apply N; left; reflexivity). rewrite IH by (intros x H'; apply N; right; exact H'). lia.
Qed.
Lemma sizes_nats : forall sizes, non_negative sizes -> map Z.of_nat (nats sizes) = sizes.
Proof.
  induction sizes as [|z sizes IH]; intros N; [reflexivity|]. cbn [nats map].
  assert ((0 <= z)%Z) by (apply N; left; reflexivity). f_equal; [lia|]. apply IH. intros x H'; apply N; right; exact H'.
Qed.
Lemma sizes_of_map : forall (A : Type) (p : list (list A)), sizes_of p = map Z.of_nat (map (@List.length A) p).
Proof. intros A p. unfold sizes_of. rewrite map_map. reflexivity. Qed.
Lemma fold_add : forall l a, fold_left Z.add l a = (a + requested l)%Z.
Proof.
  induction l as [|z l IH]; intros a; cbn [fold_left requested fold_right]; [lia|]. rewrite IH. unfold requested. lia.
Qed.

(** *** Indices *)
Definition shuffled (s : option (list nat -> list nat)) (l : list nat) : list nat := match s with Some f => f l | None => l end.
Lemma shuffled_perm : forall s l, shuffling s -> Permutation (shuffled s l) l.
Proof. intros [f|] l H; [apply H | reflexivity]. Qed.
Lemma shuffled_length : forall s n, shuffling s -> List.length (shuffled s (seq 0 n)) = n.
Proof. intros s n H. rewrite (Permutation_length (shuffled_perm s _ H)). apply seq_length. Qed.
Lemma indices_parts : forall s sizes total, non_negative sizes ->
  indices s (Sizes sizes) (Some total) = Ok (parts_from (shuffled s (seq 0 total)) (nats sizes)).
Proof. intros s sizes total N. unfold indices. f_equal. exact (split_parts nat (shuffled s (seq 0 total)) sizes 0 N). Qed.
Lemma indices_default : forall s sizes, non_negative sizes ->
  indices s (Sizes sizes) None = indices s (Sizes sizes) (Some (Z.to_nat (requested sizes))).
Proof. intros s sizes N. unfold indices. rewrite fold_add. reflexivity. Qed.
Lemma nodup_firstn : forall (A : Type) n (l : list A), NoDup l -> NoDup (firstn n l).
Proof.
  intros A n. induction n as [|n IH]; intros l H; [constructor|]. destruct l as [|x l]; [constructor|].
  assert (N : ~ In x l /\ NoDup l) by (inversion H; split; assumption). destruct N as [N1 N2].
  cbn [firstn]. constructor; [|apply IH; exact N2]. intros I. apply N1. rewrite <- (firstn_skipn n l). apply in_or_app. left. exact I.
Qed.
Lemma indices_split : forall s sizes total, shuffling s -> non_negative sizes -> (requested sizes <= Z.of_nat total)%Z ->
  exists parts, indices s (Sizes sizes) (Some total) = Ok parts /\ sizes_of parts = sizes /\
    NoDup (List.concat parts) /\ (forall i, In i (List.concat parts) -> i < total) /\
    (requested sizes = Z.of_nat total -> Permutation (List.concat parts) (seq 0 total)).
Proof.
  intros s sizes total S N R. rewrite indices_parts by exact N. eexists. split; [reflexivity|].
  pose proof (shuffled_perm s (seq 0 total) S) as P. pose proof (shuffled_length s total S) as L.
  rewrite requested_nats in * by exact N. split; [|split; [|split]].
  - rewrite sizes_of_map, parts_sizes by lia. apply sizes_nats. exact N.
  - rewrite parts_concat. apply nodup_firstn. apply (Permutation_NoDup (l := seq 0 total)); [symmetry; exact P | apply seq_NoDup].
  - intros i H. rewrite parts_concat in H.
    assert (I : In i (shuffled s (seq 0 total))) by (rewrite <- (firstn_skipn (list_sum (nats sizes))); apply in_or_app; left; exact H).
    apply (Permutation_in i P) in I. apply in_seq in I. lia.
  - intros E. rewrite parts_concat, firstn_all2 by lia. exact P.
Qed.
(** Too much is asked for: what exists is given out. *)
Lemma indices_too_much : forall s sizes total, shuffling s -> non_negative sizes -> (Z.of_nat total < requested sizes)%Z ->
  exists parts, indices s (Sizes sizes) (Some total) = Ok parts /\ sizes_of parts <> sizes /\
    Permutation (List.concat parts) (seq 0 total).
Proof.
  intros s sizes total S N R. rewrite indices_parts by exact N. eexists. split; [reflexivity|].
  pose proof (shuffled_perm s (seq 0 total) S) as P. pose proof (shuffled_length s total S) as L.
  rewrite requested_nats in R by exact N.
  assert (C : List.concat (parts_from (shuffled s (seq 0 total)) (nats sizes)) = shuffled s (seq 0 total))
    by (rewrite parts_concat; apply firstn_all2; lia).
  split; [|rewrite C; exact P]. intros E.
  assert (X : forall (p : list (list nat)), List.length (List.concat p) = list_sum (map (@List.length nat) p)).
  { induction p as [|x p IH]; [reflexivity|]. cbn [List.concat map list_sum fold_right]. rewrite app_length, IH. reflexivity. }
  pose proof (X (parts_from (shuffled s (seq 0 total)) (nats sizes))) as Q. rewrite C, L in Q.
  rewrite sizes_of_map in E. rewrite <- (sizes_nats sizes N) in E at 2.
  assert (inj : forall a b, map Z.of_nat a = map Z.of_nat b -> a = b).
  { induction a as [|x a IH]; intros [|y b] H; try discriminate H; [reflexivity|]. injection H as H1 H2. f_equal; [lia | apply IH; exact H2]. }
  apply inj in E. rewrite E in Q. lia.
Qed.

(** *** Data sets *)
Section S.
Context {X : Type}.
Implicit Types (data : list X).
Lemma select_app : forall data a b, select data (a ++ b) = select data a ++ select data b.
Proof. intros data a b. unfold select. rewrite flat_map_concat_map, map_app, concat_app, <- !flat_map_concat_map. reflexivity. Qed.
Lemma select_length : forall data idx, (forall i, In i idx -> i < List.length data) -> List.length (select data idx) = List.length idx.
Proof.
  intros data idx. induction idx as [|i idx IH]; intros H; [reflexivity|]. cbn [select flat_map].
  destruct (nth_error data i) eqn:E; [|apply nth_error_None in E; specialize (H i (or_introl eq_refl)); lia].
  cbn [app List.length]. f_equal. apply IH. intros j J. apply H. right. exact J.
Qed.
Lemma select_all_from : forall pre data, select (pre ++ data) (seq (List.length pre) (List.length data)) = data.
Proof.
  intros pre data. revert pre. induction data as [|x data IH]; intros pre; [reflexivity|].
  cbn [List.length seq select flat_map]. rewrite nth_error_app2 by lia. rewrite Nat.sub_diag. cbn [nth_error app]. f_equal.
  specialize (IH (pre ++ [x])). rewrite app_length in IH. cbn [List.length] in IH. rewrite Nat.add_1_r, <- app_assoc in IH. exact IH.
Qed.
Lemma select_all : forall data, select data (seq 0 (List.length data)) = data.
Proof. intros data. exact (select_all_from [] data). Qed.
Lemma select_perm : forall data a b, Permutation a b -> Permutation (select data a) (select data b).
Proof. intros data a b H. unfold select. apply Permutation_flat_map. exact H. Qed.

Lemma train_split : forall s training a b c data, shuffling s -> non_negative [a; b; c] ->
  training (a + b + c)%Z = Ok data -> (a + b + c <= Z.of_nat (List.length data))%Z ->
  exists d, learning_train s training a b c = Ok d /\ set_sizes d = [a; b; c] /\ drawn d data.
Proof.
  intros s training a b c data S N T L. unfold learning_train. rewrite fold_add. cbn [requested fold_right].
  replace (0 + (a + (b + (c + 0))))%Z with (a + b + c)%Z by lia. rewrite T. cbn [bind].
  assert (R : (requested [a; b; c] <= Z.of_nat (List.length data))%Z) by (cbn; lia).
  rewrite indices_parts by exact N. cbn [bind]. eexists. split; [reflexivity|].
  pose proof (shuffled_perm s (seq 0 (List.length data)) S) as P. pose proof (shuffled_length s (List.length data) S) as LL.
  assert (B : forall i, In i (shuffled s (seq 0 (List.length data))) -> i < List.length data).
  { intros i I. apply (Permutation_in i P) in I. apply in_seq in I. lia. }
  remember (shuffled s (seq 0 (List.length data))) as idx eqn:I. clear I.
  assert (SP : forall n (l : list nat), (forall i, In i l -> i < List.length data) ->
            (forall i, In i (firstn n l) -> i < List.length data) /\ (forall i, In i (skipn n l) -> i < List.length data)).
  { intros n l H. split; intros i J; apply H; rewrite <- (firstn_skipn n l); apply in_or_app; [left | right]; exact J. }
  cbn [nats map parts_from nth ls_training ls_validation ls_test].
  destruct (SP (Z.to_nat a) idx B) as [B1 B2]. destruct (SP (Z.to_nat b) _ B2) as [B3 B4]. destruct (SP (Z.to_nat c) _ B4) as [B5 B6].
  assert (A0 : (0 <= a)%Z) by (apply N; left; reflexivity).
  assert (B0 : (0 <= b)%Z) by (apply N; right; left; reflexivity).
  assert (C0 : (0 <= c)%Z) by (apply N; right; right; left; reflexivity).
  split.
  - unfold set_sizes, sizes_of. cbn [map ls_training ls_validation ls_test].
    rewrite !select_length by assumption. rewrite !firstn_length, !skipn_length. f_equal; [lia|]. f_equal; [lia|]. f_equal. lia.
  - exists (select data (skipn (Z.to_nat c) (skipn (Z.to_nat b) (skipn (Z.to_nat a) idx)))).
    cbn [ls_training ls_validation ls_test]. rewrite <- !select_app, !firstn_skipn.
    etransitivity; [apply select_perm; exact P|]. rewrite select_all. reflexivity.
Qed.
Lemma train_test_fails : forall s (training test : Z -> result (list X)) a b c,
  exists e, learning_train_test s training test a b c = Err e.
Proof.
  intros s training test a b c. unfold learning_train_test.
  destruct (training _); [|cbn; eauto]. cbn [bind]. destruct (test c); [|cbn; eauto]. cbn [bind].
  destruct (indices s (Sizes [a; b]) _); cbn [bind indices]; eauto.
Qed.
(** The supplied data sets: generated ones always have enough points. *)
Lemma moons_enough : forall num, (0 <= num)%Z -> exists n, moons_count num = Ok n /\ (Z.of_nat n = num)%Z.
Proof.
  intros num H. unfold moons_count. assert (A : (0 <= num / 2)%Z) by (apply Z.div_pos; lia).
  assert (B : (num / 2 <= num)%Z) by (apply Z.div_le_upper_bound; lia).
  replace ((num / 2 <? 0) || (num - num / 2 <? 0))%Z with false.
  - eexists. split; [reflexivity|]. lia.
  - symmetry. apply orb_false_iff. split; apply Z.ltb_ge; lia.
Qed.
Lemma pairs_enough : forall num, (0 <= num)%Z -> exists n, pairs_count num = Ok n /\ (num <= Z.of_nat n <= num + 1)%Z.
Proof.
  intros num H. unfold pairs_count. pose proof (Z.div_mod num (-2) ltac:(lia)) as E.
  pose proof (Z.mod_neg_bound num (-2) ltac:(lia)) as M.
  replace (- (num / -2) <? 0)%Z with false by (symmetry; apply Z.ltb_ge; lia).
  eexists. split; [reflexivity|]. lia.
Qed.
Lemma generated_split : forall s (training : Z -> result (list X)) count a b c, shuffling s -> non_negative [a; b; c] ->
  count = moons_count \/ count = pairs_count -> supplies training count ->
  exists d data, training (a + b + c)%Z = Ok data /\ learning_train s training a b c = Ok d /\ set_sizes d = [a; b; c] /\ drawn d data.
Proof.
  intros s training count a b c S N C SU. specialize (SU (a + b + c)%Z).
  assert (A0 : (0 <= a)%Z) by (apply N; left; reflexivity).
  assert (B0 : (0 <= b)%Z) by (apply N; right; left; reflexivity).
  assert (C0 : (0 <= c)%Z) by (apply N; right; right; left; reflexivity).
  assert (X0 : exists n, count (a + b + c)%Z = Ok n /\ (a + b + c <= Z.of_nat n)%Z).
  { destruct C as [-> | ->].
    - destruct (moons_enough (a + b + c)%Z ltac:(lia)) as [n [E Q]]. exists n. split; [exact E | lia].
    - destruct (pairs_enough (a + b + c)%Z ltac:(lia)) as [n [E Q]]. exists n. split; [exact E | lia]. }
  destruct X0 as [n [E Q]]. rewrite E in SU. destruct SU as [data [T L]].
  destruct (train_split s training a b c data S N T ltac:(lia)) as [d [D1 [D2 D3]]].
  exists d, data. split; [exact T|]. split; [exact D1|]. split; assumption.
Qed.
End S.
(** *** What is not rejected *)
Section R.
Context {X : Type}.
Implicit Types (data : list X).
Lemma train_too_much : forall s training a b c data, shuffling s -> non_negative [a; b; c] ->
  training (a + b + c)%Z = Ok data -> (Z.of_nat (List.length data) < a + b + c)%Z ->
  exists d, learning_train s training a b c = Ok d /\ set_sizes d <> [a; b; c].
Proof.
  intros s training a b c data S N T L. unfold learning_train. rewrite fold_add. cbn [requested fold_right].
  replace (0 + (a + (b + (c + 0))))%Z with (a + b + c)%Z by lia. rewrite T. cbn [bind].
  rewrite indices_parts by exact N. cbn [bind]. eexists. split; [reflexivity|].
  pose proof (shuffled_perm s (seq 0 (List.length data)) S) as P. pose proof (shuffled_length s (List.length data) S) as LL.
  remember (shuffled s (seq 0 (List.length data))) as idx eqn:I. clear I.
  assert (B : forall n (l : list nat), List.length (select data (firstn n l)) <= List.length (firstn n l)).
  { intros n l. induction (firstn n l) as [|i k IH]; [cbn; lia|]. cbn [select flat_map]. rewrite app_length. fold (select data k).
    destruct (nth_error data i); cbn [List.length]; lia. }
  cbn [nats map parts_from nth]. unfold set_sizes, sizes_of. cbn [map ls_training ls_validation ls_test].
  intros E. injection E as E1 E2 E3.
  pose proof (B (Z.to_nat a) idx) as Ba. pose proof (B (Z.to_nat b) (skipn (Z.to_nat a) idx)) as Bb.
  pose proof (B (Z.to_nat c) (skipn (Z.to_nat b) (skipn (Z.to_nat a) idx))) as Bc.
  rewrite !firstn_length, ?skipn_length in *. lia.
Qed.
Lemma train_overlap : forall s data, shuffling s -> 3 <= List.length data ->
  exists d, learning_train s (fun _ => Ok data) 3 (-2) 2 = Ok d /\ List.length (ls_test d) = 2 /\
    (forall x, In x (ls_test d) -> In x (ls_training d)).
Proof.
  intros s data S L. unfold learning_train. cbn [bind indices].
  pose proof (shuffled_perm s (seq 0 (List.length data)) S) as P. pose proof (shuffled_length s (List.length data) S) as LL.
  assert (B : forall i, In i (shuffled s (seq 0 (List.length data))) -> i < List.length data).
  { intros i I. apply (Permutation_in i P) in I. apply in_seq in I. lia. }
  change (match s with Some f => f (seq 0 (List.length data)) | None => seq 0 (List.length data) end)
    with (shuffled s (seq 0 (List.length data))).
  remember (shuffled s (seq 0 (List.length data))) as idx eqn:I. clear I.
  destruct idx as [|i [|j [|k idx]]]; try (cbn in LL; lia).
  assert (A1 : slice (i :: j :: k :: idx) 0 3 = [i; j; k]).
  { change 3%Z with (Z.of_nat 0 + Z.of_nat 3)%Z. change 0%Z with (Z.of_nat 0). rewrite slice_nat. reflexivity. }
  assert (A2 : slice (i :: j :: k :: idx) 1 3 = [j; k]).
  { change 3%Z with (Z.of_nat 1 + Z.of_nat 2)%Z. change 1%Z with (Z.of_nat 1). rewrite slice_nat. reflexivity. }
  exists (Learning (select data [i; j; k]) (select data (slice (i :: j :: k :: idx) 3 1)) (select data [j; k])).
  cbn [ls_training ls_test]. split; [|split].
  - change (split_from (i :: j :: k :: idx) 0 [3; -2; 2]%Z) with
      [slice (i :: j :: k :: idx) 0 3; slice (i :: j :: k :: idx) 3 1; slice (i :: j :: k :: idx) 1 3].
    rewrite A1, A2. reflexivity.
  - apply select_length. intros x H. apply B. right. destruct H as [<-|[<-|[]]]; [left | right; left]; reflexivity.
  - intros x H. change (select data [i; j; k]) with (select data ([i] ++ [j; k])). rewrite select_app. apply in_or_app. right. exact H.
Qed.
Lemma train_from_end : forall s (data : list X) k b c, shuffling s -> 0 < k ->
  exists d, learning_train s (fun _ => Ok data) (- Z.of_nat k) b c = Ok d /\
    List.length (ls_training d) = List.length data - k.
Proof.
  intros s data k b c S K. unfold learning_train. cbn [bind indices].
  pose proof (shuffled_perm s (seq 0 (List.length data)) S) as P. pose proof (shuffled_length s (List.length data) S) as LL.
  assert (B : forall i, In i (shuffled s (seq 0 (List.length data))) -> i < List.length data).
  { intros i I. apply (Permutation_in i P) in I. apply in_seq in I. lia. }
  change (match s with Some f => f (seq 0 (List.length data)) | None => seq 0 (List.length data) end)
    with (shuffled s (seq 0 (List.length data))).
  remember (shuffled s (seq 0 (List.length data))) as idx eqn:I. clear I.
  eexists. split; [reflexivity|]. cbn [ls_training].
  cbn [split_from nth]. destruct (Z.eqb_spec (- Z.of_nat k) 0) as [E|E]; [lia|]. cbn [nth].
  assert (Q : slice idx 0 (0 + - Z.of_nat k) = firstn (List.length data - k) idx).
  { unfold slice, clip. rewrite LL. change (0 <? 0)%Z with false. cbv iota.
    replace (0 + - Z.of_nat k <? 0)%Z with true by (symmetry; apply Z.ltb_lt; lia).
    rewrite Nat.min_l by lia. cbn [Z.to_nat skipn]. rewrite Nat.sub_0_r. f_equal. lia. }
  rewrite Q. rewrite select_length.
  - rewrite firstn_length, LL. lia.
  - intros i J. apply B. rewrite <- (firstn_skipn (List.length data - k) idx). apply in_or_app. left. exact J.
Qed.
End R.
