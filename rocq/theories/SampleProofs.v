From Coq Require Import QArith.
From Verif Require Import Base BaseProofs Cache CacheSpec CacheProofs ModuleTree ModuleTreeProofs Sample SampleSpec.
Open Scope Z_scope.

Section Lists.
  Context {A : Type}.

  Lemma set_nth_length : forall (l : list A) p x, List.length (set_nth l p x) = List.length l.
  Proof. induction l as [|y l IH]; intros [|p] x; cbn; auto. Qed.

  Lemma set_nth_error : forall (l : list A) p x q,
    nth_error (set_nth l p x) q =
    if Nat.eqb p q then (if Nat.ltb q (List.length l) then Some x else None) else nth_error l q.
  Proof.
    induction l as [|y l IH]; intros p x q; cbn.
    - destruct p; cbn; destruct q; cbn; try reflexivity; destruct (Nat.eqb _ _); reflexivity.
    - destruct p as [|p]; destruct q as [|q]; cbn; try reflexivity.
      rewrite IH. reflexivity.
  Qed.

  Lemma set_nth_In : forall (l : list A) p x y, In y (set_nth l p x) -> y = x \/ In y l.
  Proof.
    induction l as [|z l IH]; intros [|p] x y H; cbn in *; try tauto.
    - destruct H as [H|H]; auto.
    - destruct H as [H|H]; auto. destruct (IH _ _ _ H); auto.
  Qed.

  Fixpoint last_pair (l : list (nat * A)) (p : nat) : option A :=
    match l with
    | [] => None
    | (q, v) :: l' => match last_pair l' p with Some w => Some w | None => if Nat.eqb q p then Some v else None end
    end.

  Lemma writes_error : forall (f : A -> A) (ws : list (nat * A)) (rows : list A) p,
    nth_error (fold_left (fun rs pv => set_nth rs (fst pv) (f (snd pv))) ws rows) p =
    match last_pair ws p with
    | Some v => if Nat.ltb p (List.length rows) then Some (f v) else None
    | None => nth_error rows p
    end.
  Proof.
    intros f ws. induction ws as [|[q v] ws IH]; intros rows p; cbn [fold_left last_pair]; [reflexivity|].
    rewrite IH. rewrite set_nth_length. cbn [fst snd].
    destruct (last_pair ws p) as [w|]; [reflexivity|].
    rewrite set_nth_error. destruct (Nat.eqb q p); reflexivity.
  Qed.

  Lemma writes_length : forall (f : A -> A) (ws : list (nat * A)) (rows : list A),
    List.length (fold_left (fun rs pv => set_nth rs (fst pv) (f (snd pv))) ws rows) = List.length rows.
  Proof.
    intros f ws. induction ws as [|w ws IH]; intros rows; cbn [fold_left]; [reflexivity|].
    rewrite IH. apply set_nth_length.
  Qed.

  Lemma writes_In : forall (f : A -> A) (ws : list (nat * A)) (rows : list A) y,
    In y (fold_left (fun rs pv => set_nth rs (fst pv) (f (snd pv))) ws rows) ->
    In y rows \/ exists w, In w ws /\ y = f (snd w).
  Proof.
    intros f ws. induction ws as [|w ws IH]; intros rows y H; cbn [fold_left] in H; [auto|].
    apply IH in H. destruct H as [H|[w' [H1 H2]]].
    - apply set_nth_In in H. destruct H as [H|H]; [right; exists w; cbn; auto|auto].
    - right. exists w'. cbn. auto.
  Qed.
End Lists.

Section Proofs.
  Context {F V : Type}.
  Variable orth : nat -> nat -> list (list F).
  Notation sstate := (sstate F V).
  Notation tensor := (tensor F).

  Lemma position_spec : forall n i p, position n i = Ok p ->
    (Z.of_nat p < n /\ 0 <= n) /\ (i = Z.of_nat p \/ i = Z.of_nat p - n).
  Proof.
    unfold position. intros n i p H.
    destruct ((0 <=? i) && (i <? n)) eqn:E1.
    - injection H as <-. apply andb_true_iff in E1. destruct E1 as [E1 E2].
      apply Z.leb_le in E1. apply Z.ltb_lt in E2. lia.
    - destruct ((- n <=? i) && (i <? 0)) eqn:E2; [|discriminate H].
      injection H as <-. apply andb_true_iff in E2. destruct E2 as [E2 E3].
      apply Z.leb_le in E2. apply Z.ltb_lt in E3. lia.
  Qed.

  Lemma position_eqb : forall n i p q, position n i = Ok p -> Z.of_nat q < n ->
    Nat.eqb p q = addressesb n q i.
  Proof.
    intros n i p q H Hq. apply position_spec in H as [[H1 H2] H3].
    unfold addressesb. destruct (Nat.eqb_spec p q) as [->|Hne].
    - symmetry. apply orb_true_iff. destruct H3 as [-> | ->]; [left|right]; apply Z.eqb_refl.
    - symmetry. apply orb_false_iff. split; apply Z.eqb_neq; lia.
  Qed.

  Lemma last_pair_given : forall n idx ps values p,
    positions n idx = Ok ps -> Z.of_nat p < n ->
    last_pair (combine ps values) p = @last_given F n idx values p.
  Proof.
    intros n idx. induction idx as [|i idx IH]; intros ps values p H Hp; cbn in H.
    - injection H as <-. reflexivity.
    - destruct (position n i) as [q|e] eqn:Eq; [|discriminate H]. cbn in H.
      destruct (positions n idx) as [qs|e] eqn:Eqs; [|discriminate H]. cbn in H.
      injection H as <-. destruct values as [|v values]; [reflexivity|].
      cbn [combine last_pair last_given]. rewrite (IH qs values p eq_refl Hp).
      rewrite (position_eqb n i q p Eq Hp). reflexivity.
  Qed.

  Lemma write_rows_row : forall (t t' : tensor) idx values p,
    write_rows t idx values = Ok t' ->
    row t' p = match row t p with
               | None => None
               | Some old => match last_given (nrows t) idx (t_rows values) p with
                             | Some v => Some (expand (t_cols t) v)
                             | None => Some old
                             end
               end.
  Proof.
    intros t t' idx values p H. unfold write_rows in H.
    destruct (positions (nrows t) idx) as [ps|e] eqn:Eps; [|discriminate H].
    destruct (_ || _); [|discriminate H]. injection H as <-. unfold row at 1. cbn [t_rows].
    rewrite writes_error. unfold row.
    destruct (nth_error (t_rows t) p) as [old|] eqn:En.
    - assert (Hp : (p < List.length (t_rows t))%nat) by (apply nth_error_Some; rewrite En; discriminate).
      rewrite (last_pair_given (nrows t) idx ps (t_rows values) p Eps) by (unfold nrows; lia).
      destruct (last_given _ _ _ _); [|reflexivity].
      destruct (Nat.ltb_spec p (List.length (t_rows t))); [reflexivity|lia].
    - apply nth_error_None in En.
      destruct (last_pair _ _); [|reflexivity].
      destruct (Nat.ltb_spec p (List.length (t_rows t))); [lia|reflexivity].
  Qed.

  Lemma write_rows_shape : forall (t t' : tensor) idx values,
    write_rows t idx values = Ok t' -> t_cols t' = t_cols t /\ nrows t' = nrows t.
  Proof.
    intros t t' idx values H. unfold write_rows in H.
    destruct (positions (nrows t) idx) as [ps|e]; [|discriminate H].
    destruct (_ || _); [|discriminate H]. injection H as <-. cbn. split; [reflexivity|].
    unfold nrows. cbn [t_rows]. now rewrite writes_length.
  Qed.

  Lemma write_rows_rectangular : forall (t t' : tensor) idx values,
    rectangular t -> rectangular values -> write_rows t idx values = Ok t' -> rectangular t'.
  Proof.
    intros t t' idx values Ht Hv H. unfold write_rows in H.
    destruct (positions (nrows t) idx) as [ps|e]; [|discriminate H].
    destruct (_ || _) eqn:E; [|discriminate H]. injection H as <-.
    intros y Hy. cbn [t_rows t_cols] in *. apply writes_In in Hy.
    destruct Hy as [Hy|[[q w] [Hw ->]]]; [apply Ht; exact Hy|].
    apply in_combine_r in Hw. apply Hv in Hw. cbn [snd].
    apply orb_true_iff in E. destruct E as [E|E]; apply Nat.eqb_eq in E.
    - rewrite <- E, <- Hw. destruct w as [|x [|y w]]; try reflexivity.
    - rewrite E in Hw. destruct w as [|x [|y w]]; cbn in Hw; try discriminate Hw. cbn. apply repeat_length.
  Qed.

  (** *** C14 *)
  Lemma update_sample_rows : forall (s s' : sstate) values idx,
    empty_sample s = false ->
    update_sample s values (Some idx) = (Ok tt, s') ->
    forall p, row (ss_sample s') p =
      match row (ss_sample s) p with
      | None => None
      | Some old =>
          match last_given (nrows (ss_sample s)) idx (t_rows values) p with
          | Some v => Some (expand (t_cols (ss_sample s)) v)
          | None => Some old
          end
      end.
  Proof.
    intros s s' values idx He H p. unfold update_sample in H. rewrite He in H. cbn in H.
    destruct (negb _); [discriminate H|].
    destruct (write_rows _ _ _) as [t|e] eqn:Ew; [|discriminate H].
    assert (Hs : ss_sample s' = t).
    { destruct (ss_trainable s); [destruct (ss_grad s)|]; try discriminate H; injection H as <-; reflexivity. }
    rewrite Hs. apply (write_rows_row _ _ _ _ p Ew).
  Qed.

  Lemma reset_false_persisting : forall (c : cache V) k e, wf c ->
    stored (reset_cache c false []) k = Some e -> e_persisting e = true.
  Proof.
    intros c k e Hwf H. rewrite reset_cache_stored in H by exact Hwf.
    destruct (stored c k) as [e'|]; [|discriminate H]. cbn in H.
    destruct (e_persisting e') eqn:Ep; cbn in H; [|discriminate H]. injection H as <-. exact Ep.
  Qed.

  Lemma update_sample_frame : forall (s s' : sstate) values idx,
    empty_sample s = false -> wf (ss_cache s) ->
    update_sample s values idx = (Ok tt, s') ->
    t_cols (ss_sample s') = t_cols (ss_sample s) /\ nrows (ss_sample s') = nrows (ss_sample s) /\
    ss_num s' = ss_num s /\ ss_dim s' = ss_dim s /\ ss_idx s' = ss_idx s /\
    ss_trainable s' = ss_trainable s /\ c_level (ss_cache s') = c_level (ss_cache s) /\
    forall k, stored (ss_cache s') k =
      match stored (ss_cache s) k with
      | Some e => if e_persisting e then Some e else None
      | None => None
      end.
  Proof.
    intros s s' values idx He Hwf H. unfold update_sample in H. rewrite He in H. cbn zeta in H.
    destruct (negb _); [discriminate H|].
    destruct (write_rows _ _ _) as [t|e] eqn:Ew; [|discriminate H].
    apply write_rows_shape in Ew as [Ew1 Ew2].
    assert (Hs : s' = with_cache (with_sample s t) (reset_cache (ss_cache s) false [])).
    { destruct (ss_trainable s); [destruct (ss_grad s)|]; try discriminate H; injection H as <-; reflexivity. }
    subst s'. cbn. repeat split; try assumption.
    - unfold reset_cache. cbn [andb].
      generalize (dkeys (c_entries (ss_cache s))) as ks. intros ks. generalize (ss_cache s) as c.
      induction ks as [|k0 ks IH]; intros c; cbn [fold_left]; [reflexivity|].
      rewrite IH. unfold reset_entry. destruct (dget _ _) as [e0|]; [|reflexivity].
      destruct (smem _ _); [reflexivity|]. destruct (_ || _); reflexivity.
    - intros k. change (stored (reset_cache (ss_cache s) false []) k =
        match stored (ss_cache s) k with Some e => if e_persisting e then Some e else None | None => None end).
      rewrite reset_cache_stored by exact Hwf.
      destruct (stored (ss_cache s) k) as [e0|]; [|reflexivity]. cbn.
      destruct (e_persisting e0); reflexivity.
  Qed.

  Lemma update_sample_count_rejected : forall (s : sstate) values idx,
    empty_sample s = false -> List.length idx <> List.length (t_rows values) ->
    update_sample s values (Some idx) = (Err EAssertionError, s).
  Proof.
    intros s values idx He H. unfold update_sample. rewrite He. cbn zeta.
    destruct (Nat.eqb_spec (List.length idx) (List.length (t_rows values))); [contradiction|reflexivity].
  Qed.

  Lemma update_sample_ok : forall (s : sstate) values idx,
    empty_sample s = false -> List.length idx = List.length (t_rows values) ->
    Forall (fun i => 0 <= i < nrows (ss_sample s)) idx ->
    t_cols values = t_cols (ss_sample s) -> (ss_trainable s = false \/ ss_grad s <> None) ->
    fst (update_sample s values (Some idx)) = Ok tt.
  Proof.
    intros s values idx He Hl Hi Hc Hg. unfold update_sample. rewrite He. cbn zeta.
    rewrite Hl, Nat.eqb_refl. cbn [negb]. unfold write_rows.
    assert (Hp : exists ps, positions (nrows (ss_sample s)) idx = Ok ps).
    { clear Hl. induction Hi as [|i idx Hi0 Hi IH]; cbn; [eexists; reflexivity|].
      unfold position. replace ((0 <=? i) && (i <? nrows (ss_sample s))) with true.
      2:{ symmetry. apply andb_true_iff. rewrite Z.leb_le, Z.ltb_lt. lia. }
      cbn. destruct IH as [ps ->]. cbn. eexists; reflexivity. }
    destruct Hp as [ps ->]. rewrite Hc, Nat.eqb_refl. cbn [orb].
    destruct (ss_trainable s); [|reflexivity]. destruct (ss_grad s); [reflexivity|].
    destruct Hg; [discriminate|congruence].
  Qed.

  (** A rejected update (other than the missing gradient) changes nothing. *)
  Lemma update_sample_rejected : forall (s s' : sstate) values idx e,
    update_sample s values idx = (Err e, s') -> (ss_trainable s = false \/ ss_grad s <> None) -> s' = s.
  Proof.
    intros s s' values idx e H Hg. unfold update_sample in H.
    destruct (empty_sample s); [discriminate H|]. cbn zeta in H.
    destruct (negb _); [injection H as _ <-; reflexivity|].
    destruct (write_rows _ _ _) as [t|e']; [|injection H as _ <-; reflexivity].
    destruct (ss_trainable s); [|discriminate H]. destruct (ss_grad s); [discriminate H|].
    destruct Hg; [discriminate|congruence].
  Qed.

  Lemma update_sample_grad : forall (s : sstate) values idx, ss_grad (snd (update_sample s values idx)) = ss_grad s.
  Proof.
    intros s values idx. unfold update_sample.
    destruct (empty_sample s); [reflexivity|]. cbn zeta.
    destruct (negb _); [reflexivity|]. destruct (write_rows _ _ _); [|reflexivity].
    destruct (ss_trainable s); [|reflexivity]. destruct (ss_grad s) eqn:E; cbn; exact E.
  Qed.

  (** *** C17 *)
  Definition good_orth : Prop :=
    forall n d, List.length (orth n d) = n /\ forall row, In row (orth n d) -> List.length row = d.

  Definition consistent (s : sstate) : Prop := dims_agree s /\ rectangular (ss_sample s).

  Lemma select_idx_frame : forall (s : sstate) r,
    ss_sample (snd (select_idx s r)) = ss_sample s /\ ss_num (snd (select_idx s r)) = ss_num s /\
    ss_dim (snd (select_idx s r)) = ss_dim s.
  Proof.
    intros s r. unfold select_idx. destruct (ss_num s) eqn:En; [|auto].
    destruct (selection _ _); cbn; auto.
  Qed.

  Lemma consistent_eq : forall s s' : sstate,
    ss_sample s' = ss_sample s -> ss_num s' = ss_num s -> ss_dim s' = ss_dim s -> consistent s -> consistent s'.
  Proof.
    intros s s' E1 E2 E3 [H1 H2]. unfold consistent, dims_agree, empty_sample in *.
    rewrite E1, E2, E3. auto.
  Qed.

  Lemma select_idx_consistent : forall (s : sstate) r, consistent s -> consistent (snd (select_idx s r)).
  Proof. intros s r H. destruct (select_idx_frame s r) as [E1 [E2 E3]]. eapply consistent_eq; eassumption. Qed.

  Lemma init_sample_consistent : forall (s : sstate) a r, good_orth -> good_arg a -> consistent s ->
    consistent (snd (init_sample orth s a r)).
  Proof.
    intros s a r Ho Ha H. destruct a as [|t rg g|t]; cbn [init_sample].
    - destruct (ss_num s) as [n|] eqn:En; [|exact H]. destruct (ss_dim s) as [d|] eqn:Ed; [|exact H].
      destruct ((n <? 0) || (d <? 0)) eqn:E; [exact H|].
      apply orb_false_iff in E. destruct E as [E1 E2]. apply Z.ltb_ge in E1. apply Z.ltb_ge in E2.
      apply select_idx_consistent. destruct (Ho (Z.to_nat n) (Z.to_nat d)) as [Hn Hd].
      split; [|exact Hd]. intros _. unfold nrows, ncols. cbn. rewrite Hn, !Z2Nat.id by lia. auto.
    - apply select_idx_consistent. split; [intros _; cbn; auto|exact Ha].
    - apply select_idx_consistent. split; [intros _; cbn; auto|exact Ha].
  Qed.

  Lemma sstep_consistent : forall (s : sstate) o, good_orth -> good_op o -> consistent s ->
    (ss_num s = None \/ ss_dim s = None -> empty_sample s = true) ->
    consistent (snd (sstep orth s o)) /\
    (ss_num (snd (sstep orth s o)) = None \/ ss_dim (snd (sstep orth s o)) = None ->
     empty_sample (snd (sstep orth s o)) = true).
  Proof.
    intros s o Ho Hop H Hn.
    assert (Hc : consistent (snd (sstep orth s o))).
    { destruct o as [a r|d|n|v i|r|b|g]; cbn [sstep].
      - apply init_sample_consistent; assumption.
      - unfold set_dim. destruct (ss_dim s) as [d'|] eqn:Ed; [exact H|].
        assert (He : empty_sample s = true) by (apply Hn; auto).
        assert (Hx : consistent (SState (ss_sample s) (ss_num s) (Some d) (ss_idx s) (ss_trainable s) (ss_grad s) (ss_cache s))).
        { split; [|exact (proj2 H)]. unfold dims_agree, empty_sample in *. cbn. rewrite He. discriminate. }
        destruct (ss_num s) as [n|] eqn:En; [|exact Hx].
        apply (init_sample_consistent _ NoSample full_request Ho I Hx).
      - unfold set_num. destruct (ss_num s) as [n'|] eqn:En; [exact H|].
        assert (He : empty_sample s = true) by (apply Hn; auto).
        assert (Hx : consistent (SState (ss_sample s) (Some n) (ss_dim s) (ss_idx s) (ss_trainable s) (ss_grad s) (ss_cache s))).
        { split; [|exact (proj2 H)]. unfold dims_agree, empty_sample in *. cbn. rewrite He. discriminate. }
        destruct (ss_dim s) as [d|] eqn:Ed; [|exact Hx].
        apply (init_sample_consistent _ NoSample full_request Ho I Hx).
      - unfold update_sample. destruct (empty_sample s) eqn:He; [exact H|]. cbn zeta.
        destruct (negb _); [exact H|]. destruct (write_rows _ _ _) as [t|e] eqn:Ew; [|exact H].
        assert (Hx : consistent (with_sample s t)).
        { pose proof (write_rows_rectangular _ _ _ _ (proj2 H) Hop Ew) as Hr.
          apply write_rows_shape in Ew as [E1 E2]. split; [|exact Hr].
          intros _. destruct (proj1 H He) as [H1 H2]. cbn. rewrite E2. unfold ncols. rewrite E1. split; assumption. }
        destruct (ss_trainable s); [destruct (ss_grad s)|]; cbn [snd]; try exact Hx;
          (eapply consistent_eq; [| | |exact Hx]; reflexivity).
      - apply select_idx_consistent. exact H.
      - eapply consistent_eq; [| | |exact H]; reflexivity.
      - eapply consistent_eq; [| | |exact H]; reflexivity. }
    split; [exact Hc|]. intros Hnone.
    destruct (empty_sample (snd (sstep orth s o))) eqn:He; [reflexivity|].
    destruct (proj1 Hc He) as [H1 H2]. destruct Hnone as [E|E]; congruence.
  Qed.

  Lemma srun_consistent : forall (os : list (sop F)) (s : sstate), good_orth -> Forall good_op os ->
    consistent s -> consistent (srun orth s os).
  Proof.
    intros os. induction os as [|o os IH]; intros s Ho Hos H; [exact H|].
    inversion Hos as [|o' os' Ho1 Ho2]; subst. unfold srun. cbn [fold_left]. apply IH; try assumption.
    apply sstep_consistent; try assumption. intros Hn.
    destruct (empty_sample s) eqn:He; [reflexivity|]. destruct (proj1 H He). destruct Hn; congruence.
  Qed.

  Lemma new_sample_consistent : forall level a num dim tr r, good_orth -> good_arg a ->
    consistent (snd (@new_sample F V orth level a num dim tr r)).
  Proof.
    intros level a num dim tr r Ho Ha. unfold new_sample.
    assert (H0 : forall n d, consistent (@SState F V (Tensor 0 []) n d None tr None (init_cache level))).
    { intros n d. split; [|intros x []]. unfold dims_agree, empty_sample, no_element. cbn. discriminate. }
    destruct a; apply init_sample_consistent; auto.
  Qed.

  Lemma dims_consistent : forall level a num dim tr r (os : list (sop F)),
    good_orth -> good_arg a -> Forall good_op os ->
    dims_agree (srun orth (snd (@new_sample F V orth level a num dim tr r)) os).
  Proof.
    intros level a num dim tr r os Ho Ha Hos.
    exact (proj1 (srun_consistent os _ Ho Hos (new_sample_consistent level a num dim tr r Ho Ha))).
  Qed.

  Lemma filled : forall (s : sstate), t_rows (ss_sample s) <> [] -> t_cols (ss_sample s) <> 0%nat ->
    empty_sample s = false.
  Proof.
    intros s Hr Hc. unfold empty_sample, no_element, nrows, ncols. apply Z.eqb_neq.
    destruct (t_rows (ss_sample s)) as [|r l]; [congruence|]. cbn [List.length]. nia.
  Qed.

  Lemma update_sample_empty : forall (s : sstate) values idx,
    t_rows (ss_sample s) = [] \/ t_cols (ss_sample s) = 0%nat ->
    update_sample s values idx = (Ok tt, s).
  Proof.
    intros s values idx H. unfold update_sample.
    assert (E : empty_sample s = true).
    { unfold empty_sample, no_element, nrows, ncols. apply Z.eqb_eq.
      destruct H as [H|H]; rewrite H; cbn; lia. }
    rewrite E. reflexivity.
  Qed.

  Lemma dims_not_reassigned : forall (s : sstate) n d,
    (ss_num s <> None -> set_num orth s n = (Err EAssertionError, s)) /\
    (ss_dim s <> None -> set_dim orth s d = (Err EAssertionError, s)).
  Proof.
    intros s n d. unfold set_num, set_dim. split; intros H.
    - destruct (ss_num s); [reflexivity|congruence].
    - destruct (ss_dim s); [reflexivity|congruence].
  Qed.
End Proofs.

Section HeapProofs.
  Context {F : Type}.

  Lemma load_store_same : forall (h : @heap F) a v, (a < List.length h)%nat -> load (store h a v) a = v.
  Proof.
    intros h a v H. unfold load, store. apply nth_error_nth.
    rewrite set_nth_error, Nat.eqb_refl. destruct (Nat.ltb_spec a (List.length h)); [reflexivity|lia].
  Qed.

  Lemma load_store_other : forall (h : @heap F) a b v, a <> b -> load (store h a v) b = load h b.
  Proof.
    intros h a b v H. unfold load, store.
    assert (E : nth_error (set_nth h a v) b = nth_error h b).
    { rewrite set_nth_error. destruct (Nat.eqb_spec a b); [contradiction|reflexivity]. }
    destruct (nth_error h b) as [x|] eqn:Eb.
    - rewrite (nth_error_nth _ _ _ Eb). apply nth_error_nth. rewrite E. reflexivity.
    - rewrite !nth_overflow; [reflexivity| |]; apply nth_error_None; [exact Eb|exact E].
  Qed.

  Lemma copied_sample_isolated : forall (h : @heap F) a ws,
    (a < List.length h)%nat ->
    let '(m, h1) := module_storage h (POther a) in
    load (fold_left (fun h v => store h a v) ws h1) m = load h a.
  Proof.
    intros h a ws Ha. cbn [module_storage castf_addr alloc].
    assert (Hg : forall h1, load (fold_left (fun h v => store h a v) ws h1) (List.length h) = load h1 (List.length h)).
    { induction ws as [|v ws IH]; intros h1; cbn [fold_left]; [reflexivity|].
      rewrite IH. apply load_store_other. lia. }
    rewrite Hg. unfold load at 1. rewrite app_nth2 by lia. rewrite Nat.sub_diag. reflexivity.
  Qed.

  Lemma shared_sample_follows : forall (h : @heap F) p v,
    match p with POther _ => False | _ => True end -> (passed_addr p < List.length h)%nat ->
    let '(m, h1) := module_storage h p in load (store h1 (passed_addr p) v) m = v.
  Proof. intros h [a|a|a] v Hp Ha; [| |destruct Hp]; cbn in *; apply load_store_same; exact Ha. Qed.
End HeapProofs.

(** When the rows at given indices can be read. *)
Lemma position_ok : forall n i, is_ok (position n i) = true <-> - n <= i < n.
Proof.
  intros n i. unfold position.
  destruct ((0 <=? i) && (i <? n)) eqn:E1.
  - apply andb_true_iff in E1. destruct E1 as [A B]. apply Z.leb_le in A. apply Z.ltb_lt in B. cbn. split; [lia | reflexivity].
  - destruct ((- n <=? i) && (i <? 0)) eqn:E2.
    + apply andb_true_iff in E2. destruct E2 as [A B]. apply Z.leb_le in A. apply Z.ltb_lt in B. cbn. split; [lia | reflexivity].
    + cbn. split; [discriminate |]. intros [A B].
      apply andb_false_iff in E1. apply andb_false_iff in E2. rewrite Z.leb_gt, Z.ltb_ge in E1, E2. lia.
Qed.
Lemma select_readable : forall (F : Type) (rows : list (list F)) (idx : list Z),
  is_ok (select rows idx) = true <-> forall i, In i idx -> - Z.of_nat (List.length rows) <= i < Z.of_nat (List.length rows).
Proof.
  intros F rows. induction idx as [| i idx IH]; cbn [select].
  - split; [intros _ i [] | reflexivity].
  - pose proof (position_ok (Z.of_nat (List.length rows)) i) as P.
    destruct (position (Z.of_nat (List.length rows)) i) as [p | e]; cbn [bind].
    + destruct (select rows idx) as [r | e]; cbn [bind is_ok].
      * split; [| reflexivity]. intros _ j [<- | Hj]; [exact (proj1 P eq_refl) | exact (proj1 IH eq_refl j Hj)].
      * split; [discriminate |]. intros H. apply IH. intros j Hj. apply H. now right.
    + split; [discriminate |]. intros H. apply P. apply H. now left.
Qed.
