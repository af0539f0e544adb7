(** Reading the variances: proofs. *)
From Verif Require Import Base RVec RVecProofs TotalVariance VarianceSpec.
Open Scope R_scope.

Lemma update_length l a f : length (update l a f) = length l.
Proof. revert a. induction l as [|x l IH]; intros [|a]; cbn; auto. Qed.
Lemma update_same l a f : (a < length l)%nat -> nth a (update l a f) 0 = f (nth a l 0).
Proof. revert a. induction l as [|x l IH]; intros [|a] H; cbn in *; try lia; [reflexivity|]. apply IH. lia. Qed.
Lemma update_other l a b f : a <> b -> nth b (update l a f) 0 = nth b l 0.
Proof. revert a b. induction l as [|x l IH]; intros [|a] [|b] H; cbn; try reflexivity; [now elim H|]. apply IH. congruence. Qed.

Lemma normalised_app r os o acc : normalised r (os ++ [o]) acc =
  match o with
  | TReset => 0%nat
  | TRead r' b => let m := normalised r os acc in if (repr_eqb r' r && b)%bool then S m else m
  end.
Proof.
  revert acc. induction os as [|p os IH]; intros acc; cbn [app normalised]; [destruct o; reflexivity|].
  destruct p; apply IH.
Qed.

Section Read.
  Variables (default : repr) (level : nat) (trace : repr -> R) (num : nat).
  Notation run := (tvrun default level trace num tv0).
  Definition caches (r : repr) : bool := Nat.leb (needed default r) level.
  (** What a cached cell holds. *)
  Definition divided (r : repr) (m : nat) : R := trace r / INR num ^ m.

  Definition inv (s : tv) (m : repr -> nat) : Prop :=
    (forall r a, cached s r = Some a -> (a < length (cells s))%nat /\ value s a = divided r (m r) /\ caches r = true) /\
    (forall r, cached s r = None -> caches r = true -> m r = 0%nat) /\
    (forall a, cached s Primal = Some a -> cached s Dual <> Some a).

  Lemma divided_0 r : divided r 0 = trace r.
  Proof. unfold divided. cbn. field. Qed.
  Lemma divided_S r m : INR num <> 0 -> divided r m / INR num = divided r (S m).
  Proof. intros H. unfold divided. cbn [pow]. field. split; [now apply pow_nonzero|exact H]. Qed.
  Lemma cached_set s r a r' : cached (set_cached s r a) r' = if repr_eqb r r' then a else cached s r'.
  Proof. destruct r, r'; reflexivity. Qed.
  Lemma repr_eqb_eq a b : repr_eqb a b = true <-> a = b.
  Proof. destruct a, b; cbn; split; congruence. Qed.
  Lemma other_cached s r r' a : (forall a, cached s Primal = Some a -> cached s Dual <> Some a) -> r <> r' ->
    cached s r = Some a -> cached s r' <> Some a.
  Proof. intros H N E E'. destruct r, r'; [now elim N|exact (H a E E')|exact (H a E' E)|now elim N]. Qed.

  Lemma read_inv s m r b : INR num <> 0 -> inv s m ->
    let out := total_variance default level trace num s r b in
    value (snd out) (fst out) = divided r ((if caches r then m r else 0%nat) + (if b then 1 else 0)) /\
    (fst out < length (cells (snd out)))%nat /\
    inv (snd out) (fun r' => if (repr_eqb r r' && b)%bool then S (m r') else m r').
  Proof.
    intros Hn (I1 & I2 & I3). unfold total_variance.
    assert (F : exists a s', fetch default level trace s r = (a, s') /\ (a < length (cells s'))%nat /\
      value s' a = divided r (if caches r then m r else 0%nat) /\ inv s' m /\
      (forall r', cached s' r' = Some a -> r' = r) /\ (caches r = true -> cached s' r = Some a)).
    { unfold fetch. destruct (cached s r) as [a|] eqn:E.
      - destruct (I1 r a E) as (L & V & C). exists a, s. rewrite C.
        split; [reflexivity|]. split; [exact L|]. split; [exact V|]. split; [exact (conj I1 (conj I2 I3))|]. split; [|now intros _].
        intros r' E'. destruct (repr_eqb r' r) eqn:Q; [now apply repr_eqb_eq|].
        assert (N : r' <> r) by (intros ->; destruct r; discriminate Q). elim (other_cached s r' r a I3 N E' E).
      - set (a := length (cells s)). set (s1 := Tv (cells s ++ [trace r])%list (cached_primal s) (cached_dual s)).
        assert (Cs : forall r', cached s1 r' = cached s r') by (intros []; reflexivity).
        assert (Va : value s1 a = trace r) by (unfold value, s1, a; cbn; rewrite app_nth2, Nat.sub_diag by lia; reflexivity).
        assert (Vo : forall c, (c < a)%nat -> value s1 c = value s c) by (intros c Hc; unfold value, s1; cbn; now rewrite app_nth1).
        assert (La : (a < length (cells s1))%nat) by (unfold s1, a; cbn; rewrite app_length; cbn; lia).
        fold (caches r). destruct (caches r) eqn:C.
        + exists a, (set_cached s1 r (Some a)).
          assert (G : forall r', r' <> r -> cached (set_cached s1 r (Some a)) r' = cached s r').
          { intros r' N. rewrite cached_set, Cs. destruct (repr_eqb r r') eqn:Q; [|reflexivity]. apply repr_eqb_eq in Q. now elim N. }
          assert (Gr : cached (set_cached s1 r (Some a)) r = Some a) by (rewrite cached_set; destruct r; reflexivity).
          assert (Gc : cells (set_cached s1 r (Some a)) = cells s1) by (destruct r; reflexivity).
          assert (Gv : forall c, value (set_cached s1 r (Some a)) c = value s1 c) by (intros c; unfold value; now rewrite Gc).
          assert (Fresh : forall r', cached s r' <> Some a) by (intros r' Q; destruct (I1 r' a Q) as (L & _); unfold a in L; lia).
          split; [reflexivity|]. split; [rewrite Gc; exact La|]. split.
          { rewrite Gv, Va. rewrite (I2 r E C). symmetry. apply divided_0. }
          split.
          { split; [|split].
            - intros r' c Q. rewrite Gc, Gv. destruct (repr_eqb r' r) eqn:Z.
              + apply repr_eqb_eq in Z. subst r'. rewrite Gr in Q. injection Q as <-. split; [exact La|]. split; [|exact C].
                rewrite Va, (I2 r E C). symmetry. apply divided_0.
              + assert (N : r' <> r) by (intros ->; destruct r; discriminate Z). rewrite G in Q by exact N.
                destruct (I1 r' c Q) as (L & V & C'). split; [unfold s1; cbn; rewrite app_length; lia|]. split; [|exact C'].
                rewrite Vo by exact L. exact V.
            - intros r' Q C'. destruct (repr_eqb r' r) eqn:Z.
              + apply repr_eqb_eq in Z. subst r'. rewrite Gr in Q. discriminate Q.
              + assert (N : r' <> r) by (intros ->; destruct r; discriminate Z). rewrite G in Q by exact N. now apply I2.
            - intros c Q Q'. destruct r.
              + rewrite Gr in Q. injection Q as <-. rewrite G in Q' by discriminate. exact (Fresh Dual Q').
              + rewrite Gr in Q'. injection Q' as <-. rewrite G in Q by discriminate. exact (Fresh Primal Q). }
          split; [|now intros _].
          intros r' Q. destruct (repr_eqb r' r) eqn:Z; [now apply repr_eqb_eq|].
          assert (N : r' <> r) by (intros ->; destruct r; discriminate Z). rewrite G in Q by exact N. elim (Fresh r' Q).
        + exists a, s1. split; [reflexivity|]. split; [exact La|]. split; [rewrite Va; symmetry; apply divided_0|]. split.
          { split; [|split].
            - intros r' c Q. rewrite Cs in Q. destruct (I1 r' c Q) as (L & V & C'). split; [unfold s1; cbn; rewrite app_length; lia|].
              split; [|exact C']. rewrite Vo by exact L. exact V.
            - intros r' Q. rewrite Cs in Q. now apply I2.
            - intros c. rewrite !Cs. apply I3. }
          split; [|discriminate]. intros r' Q. rewrite Cs in Q. destruct (I1 r' a Q) as (L & _). unfold a in L. lia. }
    destruct F as (a & s' & -> & L & V & (J1 & J2 & J3) & Only & Here). cbn [fst snd].
    destruct b; cbn [fst snd].
    - set (s2 := Tv (update (cells s') a (fun v => v / INR num)) (cached_primal s') (cached_dual s')).
      assert (Cs : forall r', cached s2 r' = cached s' r') by (intros []; reflexivity).
      assert (Va : value s2 a = value s' a / INR num) by (unfold value, s2; cbn; now rewrite update_same).
      split; [rewrite Va, V, divided_S by exact Hn; f_equal; lia|].
      split; [unfold s2; cbn; now rewrite update_length|].
      split; [|split].
      + intros r' c Q. rewrite Cs in Q. destruct (J1 r' c Q) as (L' & V' & C'). unfold s2 at 1. cbn [cells]. rewrite update_length.
        split; [exact L'|]. split; [|exact C']. rewrite Bool.andb_true_r. destruct (repr_eqb r r') eqn:Z.
        * apply repr_eqb_eq in Z. subst r'. rewrite (Here C') in Q. injection Q as <-. rewrite Va, V', divided_S by exact Hn. reflexivity.
        * transitivity (value s' c); [|exact V']. unfold value, s2; cbn. apply update_other. intros <-.
          apply Only in Q. subst r'. destruct r; discriminate Z.
      + intros r' Q C'. rewrite Cs in Q. rewrite Bool.andb_true_r. destruct (repr_eqb r r') eqn:Z; [|now apply J2].
        apply repr_eqb_eq in Z. subst r'. rewrite (Here C') in Q. discriminate Q.
      + intros c. rewrite !Cs. apply J3.
    - split; [rewrite V; f_equal; lia|]. split; [exact L|]. split; [|split].
      + intros r' c Q. rewrite Bool.andb_false_r. now apply J1.
      + intros r' Q C'. rewrite Bool.andb_false_r. now apply J2.
      + exact J3.
  Qed.
  Lemma inv_ext s m m' : (forall r, m r = m' r) -> inv s m -> inv s m'.
  Proof.
    intros H (I1 & I2 & I3). split; [|split; [|exact I3]].
    - intros r a Q. rewrite <- H. now apply I1.
    - intros r Q C. rewrite <- H. now apply I2.
  Qed.
  Lemma run_inv os : INR num <> 0 -> inv (run os) (fun r => normalised r os 0).
  Proof.
    intros Hn. induction os as [|o os IH] using rev_ind.
    - split; [|split]; cbn; [intros []; discriminate|reflexivity|discriminate].
    - unfold tvrun in *. rewrite fold_left_app. cbn [fold_left].
      apply (inv_ext _ (fun r => match o with TReset => 0%nat | TRead r' b => if (repr_eqb r' r && b)%bool then S (normalised r os 0) else normalised r os 0 end)).
      { intros r. rewrite normalised_app. now destruct o. }
      destruct o as [r b|]; cbn [tvstep].
      + apply (read_inv _ _ r b Hn IH).
      + split; [|split]; cbn; [intros []; discriminate|reflexivity|discriminate].
  Qed.

  (** The value given by a read after any history. *)
  Theorem read_exact os r b : (0 < num)%nat ->
    let out := total_variance default level trace num (run os) r b in
    value (snd out) (fst out) = trace r / INR num ^ ((if caches r then normalised r os 0 else 0) + (if b then 1 else 0)).
  Proof.
    intros Hn. assert (N : INR num <> 0) by (now apply not_0_INR, Nat.neq_0_lt_0).
    exact (proj1 (read_inv _ _ r b N (run_inv os N))).
  Qed.
  (** The relative variance after any history. *)
  Theorem relative_exact os vals : (0 < num)%nat ->
    fst (relative_variance default level trace num vals (run os)) =
    sum vals / (trace default / INR num ^ (if caches default then normalised default os 0 else 0)).
  Proof.
    intros Hn. unfold relative_variance. pose proof (read_exact os default false Hn) as H. cbv zeta in H.
    destruct (total_variance default level trace num (run os) default false) as [a s']. cbn [fst snd] in *.
    rewrite H. now rewrite Nat.add_0_r.
  Qed.
  (** Reading is the same question with the same answer when nothing is cached, or when no
      normalised value was asked for since the last reset. *)
  Theorem read_stable os r b : (0 < num)%nat -> caches r = false \/ normalised r os 0 = 0%nat ->
    let out := total_variance default level trace num (run os) r b in
    value (snd out) (fst out) = if b then trace r / INR num else trace r.
  Proof.
    intros Hn H. cbv zeta. rewrite (read_exact os r b Hn).
    assert (E : (if caches r then normalised r os 0 else 0%nat) = 0%nat) by (destruct H as [-> | ->]; [reflexivity|now destruct (caches r)]).
    rewrite E. destruct b; cbn; field. apply not_0_INR. lia.
  Qed.
  (** Normalised readings shrink. *)
  Theorem read_twice r : (2 <= num)%nat -> caches r = true -> trace r <> 0 ->
    let first := total_variance default level trace num tv0 r true in
    let second := total_variance default level trace num (snd first) r true in
    value (snd first) (fst first) = trace r / INR num /\
    value (snd second) (fst second) = trace r / (INR num * INR num) /\
    value (snd second) (fst second) <> value (snd first) (fst first) /\ fst second = fst first.
  Proof.
    intros Hn C T first second.
    assert (P : 2 <= INR num) by (apply (le_INR 2); lia).
    pose proof (read_exact [] r true ltac:(lia)) as E1. cbv zeta in E1. change (run []) with tv0 in E1. fold first in E1.
    pose proof (read_exact [TRead r true] r true ltac:(lia)) as E2. cbv zeta in E2.
    change (run [TRead r true]) with (snd first) in E2. fold second in E2. rewrite C in E1, E2.
    assert (Q : normalised r [TRead r true] 0 = 1%nat) by (cbn; now destruct r). rewrite Q in E2. cbn in E1, E2.
    assert (V1 : value (snd first) (fst first) = trace r / INR num) by (rewrite E1; field; lra).
    assert (V2 : value (snd second) (fst second) = trace r / (INR num * INR num)) by (rewrite E2; field; lra).
    split; [exact V1|]. split; [exact V2|]. split.
    - rewrite V1, V2. intros H. apply T.
      assert (X : trace r = trace r / INR num * INR num) by (field; lra).
      assert (Y : trace r / INR num = trace r / (INR num * INR num) * INR num) by (field; lra). rewrite H in Y. nra.
    - unfold second, first, total_variance, fetch. unfold caches in C. clear - C.
      assert (N : cached tv0 r = None) by (destruct r; reflexivity). rewrite N, C. destruct r; reflexivity.
  Qed.
  (** After one normalised read, a model that keeps everything explains [num] times the
      variance. *)
  Theorem relative_above vals : (2 <= num)%nat -> caches default = true -> 0 < trace default -> sum vals = trace default ->
    fst (relative_variance default level trace num vals (run [])) = 1 /\
    fst (relative_variance default level trace num vals (run [TRead default true])) = INR num.
  Proof.
    intros Hn C T S. assert (P : 2 <= INR num) by (apply (le_INR 2); lia).
    rewrite !relative_exact by lia. rewrite C, S. assert (Q : normalised default [TRead default true] 0 = 1%nat) by (cbn; now destruct default).
    rewrite Q. cbn. split; field; lra.
  Qed.
End Read.

Lemma normalised_never r os : (forall r', ~ In (TRead r' true) os) -> normalised r os 0 = 0%nat.
Proof.
  induction os as [|o os IH]; intros H; [reflexivity|]. assert (H' : forall r', ~ In (TRead r' true) os) by (intros r' Q; apply (H r'); now right).
  destruct o as [r' b|]; cbn [normalised]; [|now apply IH].
  destruct b; [elim (H r'); now left|]. rewrite Bool.andb_false_r. now apply IH.
Qed.
Theorem read_stable_never default level trace num os r b : (0 < num)%nat ->
  (level < needed default r)%nat \/ (forall r', ~ In (TRead r' true) os) ->
  let out := total_variance default level trace num (tvrun default level trace num tv0 os) r b in
  value (snd out) (fst out) = if b then trace r / INR num else trace r.
Proof.
  intros Hn H. apply read_stable; [exact Hn|]. destruct H as [L|N]; [left|right; now apply normalised_never].
  unfold caches. apply Nat.leb_gt. exact L.
Qed.
Lemma caches_default level r : (2 <= level)%nat -> caches r level r = true.
Proof. intros H. unfold caches, needed. apply Nat.leb_le. destruct r; exact H. Qed.
Theorem read_twice_default level trace num r : (2 <= level)%nat -> (2 <= num)%nat -> trace r <> 0 ->
  let first := total_variance r level trace num tv0 r true in
  let second := total_variance r level trace num (snd first) r true in
  value (snd first) (fst first) = trace r / INR num /\
  value (snd second) (fst second) = trace r / (INR num * INR num) /\
  value (snd second) (fst second) <> value (snd first) (fst first).
Proof.
  intros Hl Hn T first second. destruct (read_twice r level trace num r Hn (caches_default level r Hl) T) as (A & B & C & _).
  exact (conj A (conj B C)).
Qed.
Theorem relative_above_default level trace num r vals : (2 <= level)%nat -> (2 <= num)%nat -> 0 < trace r -> sum vals = trace r ->
  fst (relative_variance r level trace num vals tv0) = 1 /\
  fst (relative_variance r level trace num vals (tvrun r level trace num tv0 [TRead r true])) = INR num /\ 1 < INR num.
Proof.
  intros Hl Hn T S. destruct (relative_above r level trace num vals Hn (caches_default level r Hl) T S) as (A & B).
  split; [exact A|]. split; [exact B|]. apply Rlt_le_trans with 2; [lra|]. now apply (le_INR 2).
Qed.
Theorem returned_changes level trace num r b : (2 <= level)%nat -> (2 <= num)%nat -> trace r <> 0 ->
  let first := total_variance r level trace num tv0 r b in
  let second := total_variance r level trace num (snd first) r true in
  value (snd second) (fst first) <> value (snd first) (fst first).
Proof.
  intros Hl Hn T first second. pose proof (caches_default level r Hl) as C.
  assert (P : 2 <= INR num) by (now apply (le_INR 2)).
  assert (Same : fst second = fst first).
  { unfold second, first, total_variance, fetch. unfold caches in C. clear - C.
    assert (N : cached tv0 r = None) by (destruct r; reflexivity). rewrite N, C. destruct r, b; reflexivity. }
  pose proof (read_exact r level trace num [] r b ltac:(lia)) as E1. cbv zeta in E1. change (tvrun r level trace num tv0 []) with tv0 in E1. fold first in E1.
  pose proof (read_exact r level trace num [TRead r b] r true ltac:(lia)) as E2. cbv zeta in E2.
  change (tvrun r level trace num tv0 [TRead r b]) with (snd first) in E2. fold second in E2. rewrite Same in E2. rewrite C in E1, E2.
  rewrite E2, E1. replace (normalised r [TRead r b] 0) with (if b then 1 else 0)%nat by (destruct r, b; reflexivity).
  destruct b; cbn; intros H.
  - assert (X : trace r / (INR num * 1) = trace r / INR num) by (field; lra).
    assert (Y : trace r / (INR num * (INR num * 1)) * INR num = trace r / INR num) by (field; lra). rewrite H, X in Y.
    apply T. assert (Z : trace r = trace r / INR num * INR num) by (field; lra). nra.
  - assert (X : trace r / 1 = trace r) by field. rewrite X in H.
    assert (Y : trace r / (INR num * 1) * INR num = trace r) by (field; lra). rewrite H in Y. apply T. nra.
Qed.
(** A step that is not a normalised read keeps the cells. *)
Lemma quiet_step default level trace num s o a : (forall r, o <> TRead r true) -> (a < length (cells s))%nat ->
  value (tvstep default level trace num s o) a = value s a /\ (a < length (cells (tvstep default level trace num s o)))%nat.
Proof.
  intros H L. destruct o as [r [|]|]; [elim (H r); reflexivity| |now split].
  cbn [tvstep]. unfold total_variance, fetch. destruct (cached s r) as [c|]; [now split|]. cbn [snd].
  assert (Q : forall (b : bool) s', cells s' = (cells s ++ [trace r])%list ->
    value s' a = value s a /\ (a < length (cells s'))%nat).
  { intros _ s' E. unfold value. rewrite E, app_nth1, app_length by exact L. split; [reflexivity|cbn; lia]. }
  destruct (Nat.leb (needed default r) level); apply (Q true); [destruct r; reflexivity|reflexivity].
Qed.
Theorem returned_stable default level trace num os r b os' : (0 < num)%nat -> (forall r', ~ In (TRead r' true) os') ->
  let out := total_variance default level trace num (tvrun default level trace num tv0 os) r b in
  value (tvrun default level trace num (snd out) os') (fst out) = value (snd out) (fst out).
Proof.
  intros Hn H out. assert (N : INR num <> 0) by (now apply not_0_INR, Nat.neq_0_lt_0).
  destruct (read_inv default level trace num _ _ r b N (run_inv default level trace num os N)) as (_ & L & _). fold out in L.
  destruct out as [a s]. cbn [fst snd] in *. clear - H L. revert s L. induction os' as [|o os' IH]; intros s L; [reflexivity|].
  unfold tvrun in *. cbn [fold_left].
  destruct (quiet_step default level trace num s o a) as (V & L'); [intros r' ->; apply (H r'); now left|exact L|].
  rewrite IH; [exact V|intros r' Q; apply (H r'); now right|exact L'].
Qed.
