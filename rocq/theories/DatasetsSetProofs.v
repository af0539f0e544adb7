(** Generated data sets as learning sets: proofs. *)
From Coq Require Import Reals List ZArith Lia Lra Permutation.
From Verif Require Import Base DataSplit DataSplitSpec DataSplitProofs Datasets DatasetsSpec DatasetsProofs.
Import ListNotations.
Open Scope R_scope.

Lemma spiral_enough : forall num, (num <= List.length (spiral num) <= num + 1)%nat.
Proof.
  intros num. rewrite (proj1 (spiral_counts num)).
  pose proof (Nat.div_mod (num + 1) 2 ltac:(lia)). pose proof (Nat.mod_upper_bound (num + 1) 2 ltac:(lia)). lia.
Qed.
Lemma drawn_in : forall {X} (d : learning_set X) data x, drawn d data -> In x (all_points d) -> In x data.
Proof.
  intros X d data x [rest P] H. apply (Permutation_in _ P). unfold all_points in H. rewrite !in_app_iff in *. tauto.
Qed.
Lemma drawn_all : forall {X} (d : learning_set X) data, drawn d data -> List.length (all_points d) = List.length data -> Permutation (all_points d) data.
Proof.
  intros X d data [rest P] L. pose proof (Permutation_length P) as E. unfold all_points in *. rewrite !app_length in *.
  destruct rest as [|x rest]; [|cbn [List.length] in E; lia]. now rewrite app_nil_r in P.
Qed.
Lemma NoDup_prefix : forall {X} (l m : list X), NoDup (l ++ m) -> NoDup l.
Proof.
  intros X l m. induction l as [|x l IH]; intros H; [constructor|]. cbn in H. apply NoDup_cons_iff in H as [A B].
  constructor; [|exact (IH B)]. intros I. apply A. apply in_app_iff. now left.
Qed.
Lemma drawn_nodup : forall {X B} (f : X -> B) (d : learning_set X) data, drawn d data -> NoDup (map f data) -> NoDup (map f (all_points d)).
Proof.
  intros X B f d data [rest P] N. apply (Permutation_map f) in P. apply (Permutation_NoDup (Permutation_sym P)) in N.
  rewrite !app_assoc, map_app in N. unfold all_points. rewrite app_assoc. now apply NoDup_prefix in N.
Qed.
Lemma all_points_length : forall {X} (d : learning_set X) a b c, set_sizes d = [a; b; c] -> Z.of_nat (List.length (all_points d)) = (a + b + c)%Z.
Proof.
  intros X d a b c H. unfold set_sizes, sizes_of in H. cbn [map] in H. injection H as <- <- <-.
  unfold all_points. rewrite !app_length. lia.
Qed.
Lemma drawn_consistent : forall (d : learning_set labelled) data, drawn d data -> consistent data -> consistent (all_points d).
Proof. intros d data D C p c c' H H'. exact (C p c c' (drawn_in d data _ D H) (drawn_in d data _ D H')). Qed.

Section Sets.
  Variable s : option (list nat -> list nat).
  Hypothesis Hs : shuffling s.
  Variables a b c : Z.
  Hypothesis N : non_negative [a; b; c].
  Lemma total_pos : (0 <= a + b + c)%Z.
  Proof. pose proof (N a ltac:(now left)). pose proof (N b ltac:(right; now left)). pose proof (N c ltac:(do 2 right; now left)). lia. Qed.
  Lemma spiral_drawn : exists d, spiral_set s a b c = Ok d /\ set_sizes d = [a; b; c] /\ drawn d (spiral (Z.to_nat (a + b + c))).
  Proof.
    pose proof total_pos as T. destruct (pairs_enough _ T) as [n [En _]].
    apply train_split; [exact Hs | exact N | now rewrite En |]. pose proof (spiral_enough (Z.to_nat (a + b + c))). lia.
  Qed.
  Lemma moons_drawn sep noise draw : exists d, moons_set sep noise draw s a b c = Ok d /\ set_sizes d = [a; b; c] /\
    Permutation (all_points d) (moons sep noise draw (Z.to_nat (a + b + c))).
  Proof.
    pose proof total_pos as T. destruct (moons_enough _ T) as [n [En _]].
    pose proof (proj1 (moons_counts sep noise draw (Z.to_nat (a + b + c)))) as L.
    destruct (train_split s (fun num => bind (moons_count num) (fun _ => Ok (moons sep noise draw (Z.to_nat num)))) a b c (moons sep noise draw (Z.to_nat (a + b + c))))
      as [d [Ed [Sd Dd]]]; [exact Hs | exact N | now rewrite En | lia |].
    exists d. split; [exact Ed|]. split; [exact Sd|]. apply drawn_all; [exact Dd|]. pose proof (all_points_length _ _ _ _ Sd). lia.
  Qed.
  Theorem spiral_good : (a + b + c <= 208)%Z -> exists d, spiral_set s a b c = Ok d /\ set_sizes d = [a; b; c] /\
    consistent (all_points d) /\ NoDup (map fst (all_points d)).
  Proof.
    intros H. destruct spiral_drawn as [d [Ed [Sd Dd]]]. exists d. split; [exact Ed|]. split; [exact Sd|].
    destruct (spiral_consistent (Z.to_nat (a + b + c)) ltac:(lia)) as [C D]. split.
    - exact (drawn_consistent d _ Dd C).
    - exact (drawn_nodup fst d _ Dd D).
  Qed.
  Theorem spiral_bad : (209 <= a + b + c)%Z -> Z.Even (a + b + c) -> exists d, spiral_set s a b c = Ok d /\
    In ((1 / 2, 1 / 2), -1) (all_points d) /\ In ((1 / 2, 1 / 2), 1) (all_points d).
  Proof.
    intros H [k Ek]. destruct spiral_drawn as [d [Ed [Sd Dd]]]. exists d. split; [exact Ed|].
    assert (P : Permutation (all_points d) (spiral (Z.to_nat (a + b + c)))).
    { apply drawn_all; [exact Dd|]. pose proof (all_points_length _ _ _ _ Sd) as L. rewrite (proj1 (spiral_counts _)).
      replace (Z.to_nat (a + b + c)) with (2 * Z.to_nat k)%nat by lia.
      assert (E : ((2 * Z.to_nat k + 1) / 2 = Z.to_nat k)%nat) by (rewrite Nat.mul_comm, Nat.div_add_l by lia; cbn; lia). lia. }
    apply Permutation_sym in P. destruct (spiral_contradicts (Z.to_nat (a + b + c)) ltac:(lia)) as [A B].
    split; [exact (Permutation_in _ P A) | exact (Permutation_in _ P B)].
  Qed.
End Sets.

(** ** The statements about learning sets *)
Lemma with_label_permutation : forall c l l', Permutation l l' -> with_label c l = with_label c l'.
Proof.
  intros c l l' P. unfold with_label. induction P as [|x l l' P IH|x y l|l1 l2 l3 P1 IH1 P2 IH2].
  - reflexivity.
  - cbn [filter]. destruct (Req_EM_T (snd x) c); cbn [List.length]; now rewrite IH.
  - cbn [filter]. destruct (Req_EM_T (snd x) c), (Req_EM_T (snd y) c); reflexivity.
  - congruence.
Qed.
Theorem moons_labels : forall s a b c sep noise draw, shuffling s -> non_negative [a; b; c] ->
  exists d, moons_set sep noise draw s a b c = Ok d /\ set_sizes d = [a; b; c] /\
    Z.of_nat (with_label 0 (all_points d)) = ((a + b + c) / 2)%Z /\
    Z.of_nat (with_label 1 (all_points d)) = (a + b + c - (a + b + c) / 2)%Z.
Proof.
  intros s a b c sep noise draw Hs N. destruct (moons_drawn s Hs a b c N sep noise draw) as [d [Ed [Sd P]]].
  exists d. split; [exact Ed|]. split; [exact Sd|]. pose proof (total_pos a b c N) as T.
  destruct (moons_counts sep noise draw (Z.to_nat (a + b + c))) as [_ [L1 L0]].
  rewrite !(with_label_permutation _ _ _ P), L1, L0.
  assert (D : Z.of_nat (Z.to_nat (a + b + c) / 2) = ((a + b + c) / 2)%Z) by (rewrite Nat2Z.inj_div; change (Z.of_nat 2) with 2%Z; now rewrite Z2Nat.id).
  split; [exact D|]. pose proof (Nat.div_le_upper_bound (Z.to_nat (a + b + c)) 2 (Z.to_nat (a + b + c)) ltac:(lia) ltac:(lia)).
  rewrite Nat2Z.inj_sub by assumption. rewrite D. lia.
Qed.
Lemma even_drawn : forall s a b c, shuffling s -> non_negative [a; b; c] -> Z.Even (a + b + c) ->
  exists d, spiral_set s a b c = Ok d /\ set_sizes d = [a; b; c] /\ Permutation (all_points d) (spiral (Z.to_nat (a + b + c))).
Proof.
  intros s a b c Hs N [k Ek]. pose proof (total_pos a b c N) as T. destruct (spiral_drawn s Hs a b c N) as [d [Ed [Sd Dd]]].
  exists d. split; [exact Ed|]. split; [exact Sd|].
  apply drawn_all; [exact Dd|]. pose proof (all_points_length _ _ _ _ Sd) as L. rewrite (proj1 (spiral_counts _)).
  replace (Z.to_nat (a + b + c)) with (2 * Z.to_nat k)%nat by lia.
  assert (E : ((2 * Z.to_nat k + 1) / 2 = Z.to_nat k)%nat) by (rewrite Nat.mul_comm, Nat.div_add_l by lia; cbn; lia). lia.
Qed.
Theorem spiral_even : forall s a b c, shuffling s -> non_negative [a; b; c] -> Z.Even (a + b + c) ->
  exists d, spiral_set s a b c = Ok d /\ set_sizes d = [a; b; c] /\
    with_label (-1) (all_points d) = with_label 1 (all_points d).
Proof.
  intros s a b c Hs N E. destruct (even_drawn s a b c Hs N E) as [d [Ed [Sd P]]]. exists d. split; [exact Ed|]. split; [exact Sd|].
  rewrite !(with_label_permutation _ _ _ P). destruct (spiral_counts (Z.to_nat (a + b + c))) as [_ [A B]]. now rewrite A, B.
Qed.
Theorem spiral_far : forall s a b c, shuffling s -> non_negative [a; b; c] -> Z.Even (a + b + c) -> (18 <= a + b + c)%Z ->
  exists d p, spiral_set s a b c = Ok d /\ In (p, -1) (all_points d) /\ ~ inside spiral_range p.
Proof.
  intros s a b c Hs N E H. destruct (even_drawn s a b c Hs N E) as [d [Ed [_ P]]].
  destruct (spiral_outside (Z.to_nat (a + b + c)) ltac:(lia)) as [p [Hp O]]. exists d, p.
  split; [exact Ed|]. split; [|exact O]. exact (Permutation_in _ (Permutation_sym P) Hp).
Qed.
Theorem spiral_near : forall s a b c, shuffling s -> non_negative [a; b; c] -> (a + b + c <= 416)%Z ->
  exists d, spiral_set s a b c = Ok d /\ forall p l, In (p, l) (all_points d) -> inside ((-5, 6), (-5, 6)) p.
Proof.
  intros s a b c Hs N H. destruct (spiral_drawn s Hs a b c N) as [d [Ed [_ D]]]. exists d. split; [exact Ed|].
  intros p l Hp. apply (drawn_in d _ _ D) in Hp. exact (spiral_bounds (Z.to_nat (a + b + c)) p l ltac:(lia) Hp).
Qed.
Theorem moons_where : forall s a b c sep draw, shuffling s -> non_negative [a; b; c] ->
  exists d, moons_set sep 0 draw s a b c = Ok d /\ forall p l, In (p, l) (all_points d) ->
    (l = 1 /\ lower_half sep p) \/ (l = 0 /\ upper_half (0, 0) p).
Proof.
  intros s a b c sep draw Hs N. destruct (moons_drawn s Hs a b c N sep 0 draw) as [d [Ed [_ P]]]. exists d. split; [exact Ed|].
  intros p l H. apply (Permutation_in _ P) in H. exact (moons_circles _ _ _ _ _ H).
Qed.
Theorem moons_range_holds : forall s a b c sep noise draw, shuffling s -> non_negative [a; b; c] -> 0 <= noise ->
  (forall i, -2 <= fst (draw i) <= 2 /\ -2 <= snd (draw i) <= 2) ->
  exists d, moons_set sep noise draw s a b c = Ok d /\ forall p l, In (p, l) (all_points d) -> inside (moons_range sep noise) p.
Proof.
  intros s a b c sep noise draw Hs N H0 HD. destruct (moons_drawn s Hs a b c N sep noise draw) as [d [Ed [_ P]]].
  exists d. split; [exact Ed|]. intros p l H. apply (Permutation_in _ P) in H. exact (moons_inside _ _ _ _ _ _ H0 HD H).
Qed.
Theorem moons_consistent : forall s a b c draw, shuffling s -> non_negative [a; b; c] ->
  exists d, moons_set (1, 1 / 2) 0 draw s a b c = Ok d /\ consistent (all_points d).
Proof.
  intros s a b c draw Hs N. destruct (moons_drawn s Hs a b c N (1, 1 / 2) 0 draw) as [d [Ed [_ P]]].
  exists d. split; [exact Ed|]. intros p l l' H H'. apply (Permutation_in _ P) in H, H'. exact (moons_apart _ _ _ _ _ H H').
Qed.
(** Half circles that meet: with a separation of (2, 0) and at least two points,
    the point (1, 0) is in both classes. *)
Theorem moons_meet : forall draw num, (2 <= num)%nat -> In ((1, 0), 1) (moons (2, 0) 0 draw num) /\ In ((1, 0), 0) (moons (2, 0) 0 draw num).
Proof.
  intros draw num H. unfold moons. rewrite perturb_none. unfold moons_exact.
  assert (Z0 : forall n, (1 <= n)%nat -> In 0 (linspace0 PI n)).
  { intros [|[|n]] Hn; [lia | now left |]. cbn [linspace0]. apply in_map_iff. exists 0%nat. split; [cbn [INR]; unfold Rdiv; lra|]. apply in_seq. lia. }
  assert (O : (1 <= num / 2)%nat) by (apply Nat.div_le_lower_bound; lia).
  assert (I : (1 <= num - num / 2)%nat) by (pose proof (Nat.div_lt num 2 ltac:(lia) ltac:(lia)); lia).
  rewrite !in_app_iff. split; [left | right]; apply in_map_iff; exists (1, 0); (split; [reflexivity|]); apply in_map_iff; exists 0;
    (split; [|apply Z0; assumption]); cbn [fst snd]; rewrite cos_0, sin_0; f_equal; lra.
Qed.
