(** Proofs about evaluating a model. *)
From Verif Require Import Base BaseProofs Cache CacheSpec CacheProofs Tree ModuleTree Sample SampleSpec SampleProofs ModelForward ModelForwardSpec.
From Coq Require Import Lia.
Open Scope Z_scope.
Open Scope list_scope.

Section Proofs.
  Context {F V P : Type}.
  Variable B : behaviour F P.
  Notation flevel := (flevel F V P).
  Notation tensor := (tensor F).

  Lemma eval_composed : forall (ls : list flevel) x z, eval_forward B x ls = Ok z <-> composed B x ls z.
  Proof.
    induction ls as [|l ls IH]; intros x z.
    - cbn [eval_forward]. split.
      + intros H. injection H as <-. constructor.
      + intros H. inversion H. reflexivity.
    - cbn [eval_forward]. split.
      + intros H. destruct (call B l x) as [y|e] eqn:C; [|discriminate H].
        apply (composed_more B x l ls y z C). apply IH. exact H.
      + intros H. inversion H as [|x0 l0 ls0 y z0 C R E1 E2 E3]. rewrite C. apply IH. exact R.
  Qed.
  Lemma eval_app : forall (ls1 ls2 : list flevel) x,
    eval_forward B x (ls1 ++ ls2) = bind (eval_forward B x ls1) (fun y => eval_forward B y ls2).
  Proof.
    induction ls1 as [|l ls1 IH]; intros ls2 x; [reflexivity|].
    cbn [eval_forward app]. destruct (call B l x); [apply IH | reflexivity].
  Qed.

  Lemma refit_frame : forall (l l' : flevel), refit B l = Ok l' ->
    fl_state l' = fl_state l /\ fl_soft l' = fl_soft l /\ (fl_soft l = Some true -> l' = l) /\
    (fl_soft l = Some false -> b_solve B (fl_par l) (ss_sample (fl_state l)) (ss_idx (fl_state l)) = Ok (fl_par l')).
  Proof.
    intros l l' H. unfold refit in H. destruct (fl_soft l) as [[|]|] eqn:S; [| |discriminate H].
    - injection H as <-. split; [reflexivity|]. split; [exact S|]. split; [reflexivity | discriminate].
    - destruct (b_solve _ _ _ _) as [p|e]; [|discriminate H]. injection H as <-.
      split; [reflexivity|]. split; [first [reflexivity | exact S]|]. split; [discriminate | reflexivity].
  Qed.

  Lemma update_empty : forall (s : sstate F V) v idx, empty_sample s = true -> update_sample s v idx = (Ok tt, s).
  Proof. intros s v idx H. unfold update_sample. rewrite H. reflexivity. Qed.

  (** The first level of a call, and what the next ones get. *)
  Lemma train_head : forall idx x (l : flevel) ls r ls', train_forward B idx x (l :: ls) = (Ok r, ls') ->
    exists l1 l2 y ls2, feed idx x l = (Ok tt, l1) /\ refit B l1 = Ok l2 /\ call_own B l2 = Ok y /\
      train_forward B idx (Some y) ls = (Ok r, ls2) /\ ls' = l2 :: ls2.
  Proof.
    intros idx x l ls r ls' H. cbn [train_forward] in H.
    destruct (feed idx x l) as [[u|e] l1]; [|discriminate H].
    destruct (refit B l1) as [l2|e] eqn:R; [|discriminate H].
    destruct (call_own B l2) as [y|e] eqn:C; [|discriminate H].
    destruct (train_forward B idx (Some y) ls) as [r2 ls2] eqn:T. injection H as -> <-.
    exists l1, l2, y, ls2. destruct u. repeat split; assumption || reflexivity.
  Qed.
  Lemma fed_rows : forall idx y (l l1 l2 : flevel) z,
    feed (Some idx) (Some y) l = (Ok tt, l1) -> refit B l1 = Ok l2 -> call_own B l2 = Ok z ->
    rows_written (fl_state l) (fl_state l2) idx y.
  Proof.
    intros idx y l l1 l2 z Fd R C. destruct (refit_frame l1 l2 R) as [E _]. unfold feed in Fd.
    destruct (update_sample (fl_state l) y (Some idx)) as [r s] eqn:U. injection Fd as -> <-.
    cbn [fl_state] in E. rewrite E.
    destruct (empty_sample (fl_state l)) eqn:Em.
    - exfalso. rewrite (update_empty _ y (Some idx) Em) in U. injection U as <-.
      unfold call_own in C. rewrite E, Em in C. discriminate C.
    - split.
      + destruct (Nat.eq_dec (List.length idx) (List.length (t_rows y))) as [D|D]; [exact D|].
        rewrite (update_sample_count_rejected _ y idx Em D) in U. discriminate U.
      + exact (update_sample_rows _ _ y idx Em U).
  Qed.
  Lemma train_rows : forall idx (ls : list flevel) x r ls',
    train_forward B (Some idx) x ls = (Ok r, ls') ->
    forall i n l' n', nth_error ls (S i) = Some n -> nth_error ls' i = Some l' -> nth_error ls' (S i) = Some n' ->
    exists y, call_own B l' = Ok y /\ rows_written (fl_state n) (fl_state n') idx y.
  Proof.
    intros idx ls. induction ls as [|l ls IH]; intros x r ls' H i n l' n' N1 N2 N3; [discriminate N1|].
    destruct (train_head (Some idx) x l ls r ls' H) as [l1 [l2 [y [ls2 [Fd [R [C [T ->]]]]]]]].
    destruct i as [|i].
    - injection N2 as <-. exists y. split; [exact C|].
      destruct ls as [|m ls]; [discriminate N1|]. injection N1 as <-.
      destruct (train_head (Some idx) (Some y) m ls r ls2 T) as [m1 [m2 [z [ls3 [Fd2 [R2 [C2 [T2 ->]]]]]]]].
      injection N3 as <-. exact (fed_rows idx y m m1 m2 z Fd2 R2 C2).
    - exact (IH (Some y) r ls2 T i n l' n' N1 N2 N3).
  Qed.
  (** The first level keeps its sample; the result is the output of the last level. *)
  Lemma train_first : forall idx (l : flevel) ls r ls',
    train_forward B idx None (l :: ls) = (Ok r, ls') ->
    exists l' ls2, ls' = l' :: ls2 /\ ss_sample (fl_state l') = ss_sample (fl_state l).
  Proof.
    intros idx l ls r ls' H.
    destruct (train_head idx None l ls r ls' H) as [l1 [l2 [y [ls2 [Fd [R [C [T ->]]]]]]]].
    exists l2, ls2. split; [reflexivity|]. destruct (refit_frame l1 l2 R) as [E _]. rewrite E.
    unfold feed in Fd. pose proof (select_idx_frame (fl_state l) (Request idx None [])) as S.
    destruct (select_idx (fl_state l) (Request idx None [])) as [q s]. injection Fd as _ <-.
    cbn [fl_state]. cbn [snd] in S. destruct S as [S _]. exact S.
  Qed.
  Lemma train_last : forall idx (ls : list flevel) x l r ls',
    train_forward B idx x (ls ++ [l]) = (Ok r, ls') ->
    exists ls2 l' y, ls' = ls2 ++ [l'] /\ call_own B l' = Ok y /\ r = Some y.
  Proof.
    intros idx ls. induction ls as [|m ls IH]; intros x l r ls' H.
    - destruct (train_head idx x l [] r ls' H) as [l1 [l2 [y [ls2 [Fd [R [C [T ->]]]]]]]].
      cbn in T. injection T as <- <-. exists [], l2, y. repeat split; assumption || reflexivity.
    - destruct (train_head idx x m (ls ++ [l]) r ls' H) as [l1 [l2 [y [ls2 [Fd [R [C [T ->]]]]]]]].
      destruct (IH (Some y) l r ls2 T) as [ls3 [l' [z [-> [C2 ->]]]]].
      exists (l2 :: ls3), l', z. repeat split; assumption || reflexivity.
  Qed.
  (** Levels with the soft constraint keep their parameters, the others are solved. *)
  Lemma feed_frame : forall idx x (l l1 : flevel) r, feed idx x l = (r, l1) -> fl_par l1 = fl_par l /\ fl_soft l1 = fl_soft l.
  Proof.
    intros idx x l l1 r H. unfold feed in H. destruct (match x with None => _ | Some _ => _ end) as [q s].
    injection H as _ <-. split; reflexivity.
  Qed.
  Lemma train_params : forall idx (ls : list flevel) x r ls',
    train_forward B idx x ls = (Ok r, ls') -> List.length ls' = List.length ls /\
    forall i l l', nth_error ls i = Some l -> nth_error ls' i = Some l' ->
      fl_soft l' = fl_soft l /\
      (fl_soft l = Some true -> fl_par l' = fl_par l) /\
      (fl_soft l = Some false -> b_solve B (fl_par l) (ss_sample (fl_state l')) (ss_idx (fl_state l')) = Ok (fl_par l')).
  Proof.
    intros idx ls. induction ls as [|m ls IH]; intros x r ls' H.
    - cbn in H. injection H as _ <-. split; [reflexivity|]. intros i l l' N. destruct i; discriminate N.
    - destruct (train_head idx x m ls r ls' H) as [l1 [l2 [y [ls2 [Fd [R [C [T ->]]]]]]]].
      destruct (IH (Some y) r ls2 T) as [L K]. split; [cbn; rewrite L; reflexivity|].
      intros i l l' N1 N2. destruct i as [|i]; [|exact (K i l l' N1 N2)].
      injection N1 as <-. injection N2 as <-.
      destruct (feed_frame _ _ _ _ _ Fd) as [F1 F2]. destruct (refit_frame l1 l2 R) as [E [S [A Bq]]].
      rewrite F2 in A, Bq, S. split; [exact S|]. split.
      + intros Z. rewrite (A Z). exact F1.
      + intros Z. rewrite E, <- F1. exact (Bq Z).
  Qed.

  (** *** A full training pass agrees with the evaluation *)
  Lemma last_given_range : forall n m k (vals : list (list F)) p,
    n = Z.of_nat (k + m) -> List.length vals = m -> (k <= p < k + m)%nat ->
    last_given n (map Z.of_nat (seq k m)) vals p = nth_error vals (p - k).
  Proof.
    intros n m. induction m as [|m IH]; intros k vals p N L Hp; [lia|].
    destruct vals as [|v vals]; [discriminate L|]. cbn [seq map last_given].
    destruct (Nat.eq_dec p k) as [->|D].
    - assert (G : last_given n (map Z.of_nat (seq (S k) m)) vals k = None).
      { clear -N.
        assert (G : forall m' j (vals : list (list F)), (k < j)%nat -> (Z.of_nat (j + m') <= n) ->
            last_given n (map Z.of_nat (seq j m')) vals k = None).
        { induction m' as [|m' IH]; intros j vs H1 H2; [destruct vs; reflexivity|].
          destruct vs as [|w vs]; [reflexivity|]. cbn [seq map last_given].
          rewrite IH by lia. unfold addressesb.
          destruct (Z.eqb_spec (Z.of_nat j) (Z.of_nat k)); [lia|].
          destruct (Z.eqb_spec (Z.of_nat j) (Z.of_nat k - n)); [lia|]. reflexivity. }
        apply G; lia. }
      rewrite G. unfold addressesb. rewrite Z.eqb_refl. cbn [orb]. rewrite Nat.sub_diag. reflexivity.
    - cbn in L. rewrite (IH (S k) vals p) by lia.
      replace (p - k)%nat with (S (p - S k)) by lia. cbn [nth_error].
      destruct (nth_error vals (p - S k)) eqn:E; [reflexivity|].
      apply nth_error_None in E. lia.
  Qed.
  Lemma nth_error_ext : forall A (l l' : list A), (forall i, nth_error l i = nth_error l' i) -> l = l'.
  Proof.
    intros A l. induction l as [|a l IH]; intros l' H.
    - destruct l' as [|b l']; [reflexivity|]. discriminate (H 0%nat).
    - destruct l' as [|b l']; [discriminate (H 0%nat)|]. f_equal.
      + specialize (H 0%nat). injection H as H. exact H.
      + apply IH. intros i. exact (H (S i)).
  Qed.
  Lemma overwrite_all : forall (t y : tensor) (n n' : sstate F V),
    ss_sample n = t -> rectangular y -> t_cols y = t_cols t ->
    rows_written n n' (range (nrows t)) y -> t_cols (ss_sample n') = t_cols t -> ss_sample n' = y.
  Proof.
    intros t y n n' T Ry Cy [L W] C. rewrite T in W.
    assert (Ln : List.length (t_rows y) = List.length (t_rows t)).
    { rewrite <- L. unfold range, nrows. rewrite map_length, seq_length, Nat2Z.id. reflexivity. }
    assert (R : t_rows (ss_sample n') = t_rows y).
    { apply nth_error_ext. intros p. specialize (W p). unfold row in W. etransitivity; [exact W|].
      destruct (nth_error (t_rows t) p) as [old|] eqn:E.
      - assert (Hp : (p < List.length (t_rows t))%nat) by (apply nth_error_Some; rewrite E; discriminate).
        unfold range. rewrite (last_given_range (nrows t) (Z.to_nat (nrows t)) 0 (t_rows y) p); unfold nrows; [|lia|lia|lia].
        rewrite Nat.sub_0_r. destruct (nth_error (t_rows y) p) as [v|] eqn:Ev.
        + f_equal. pose proof (Ry v (nth_error_In _ _ Ev)) as Hv. rewrite <- Cy, <- Hv.
          destruct v as [|a [|b v]]; reflexivity.
        + apply nth_error_None in Ev. lia.
      - apply nth_error_None in E. symmetry. apply nth_error_None. lia. }
    destruct (ss_sample n') as [c rs], y as [c' rs']. cbn [t_cols t_rows] in *. congruence.
  Qed.
  Lemma update_shape : forall (s s' : sstate F V) v idx, update_sample s v idx = (Ok tt, s') ->
    t_cols (ss_sample s') = t_cols (ss_sample s) /\ nrows (ss_sample s') = nrows (ss_sample s) /\
    ss_num s' = ss_num s /\ ss_idx s' = ss_idx s.
  Proof.
    intros s s' v idx H. unfold update_sample in H.
    destruct (empty_sample s); [injection H as <-; repeat split; reflexivity|]. cbn zeta in H.
    destruct (negb _); [discriminate H|].
    destruct (write_rows _ _ _) as [t|e] eqn:Ew; [|discriminate H].
    apply write_rows_shape in Ew as [Ew1 Ew2].
    assert (Hs : s' = with_cache (with_sample s t) (reset_cache (ss_cache s) false [])).
    { destruct (ss_trainable s); [destruct (ss_grad s)|]; try discriminate H; injection H as <-; reflexivity. }
    subst s'. repeat split; assumption || reflexivity.
  Qed.
  Lemma update_none : forall (s : sstate F V) v n, ss_num s = Some n ->
    update_sample s v None = update_sample s v (Some (range n)).
  Proof. intros s v n H. unfold update_sample. rewrite H. reflexivity. Qed.

  Lemma pass_agrees : own_consistent B -> forall (ls : list flevel) y r ls',
    train_forward B None (Some y) ls = (Ok r, ls') ->
    Forall all_selected ls -> wide_enough B ls' ->
    (forall l, nth_error ls' 0 = Some l -> rectangular y /\ t_cols y = t_cols (ss_sample (fl_state l))) ->
    eval_forward B (Some y) ls' = Ok r.
  Proof.
    intros OC ls. induction ls as [|l ls IH]; intros y r ls' H A W W0.
    - cbn in H. injection H as <- <-. reflexivity.
    - destruct (train_head None (Some y) l ls r ls' H) as [l1 [l2 [z [ls2 [Fd [R [C [T ->]]]]]]]].
      inversion A as [|l0 ls0 [A1 A2] A' E0]. subst l0 ls0.
      pose proof Fd as Fd0. unfold feed in Fd. rewrite (update_none _ y _ A1) in Fd.
      destruct (update_sample (fl_state l) y (Some (range (nrows (ss_sample (fl_state l)))))) as [q s] eqn:U.
      injection Fd as -> <-. destruct (update_shape _ _ _ _ U) as [S1 [S2 [S3 S4]]].
      destruct (refit_frame _ l2 R) as [E [_ _]]. cbn [fl_state] in E.
      assert (RW : rows_written (fl_state l) (fl_state l2) (range (nrows (ss_sample (fl_state l)))) y).
      { apply (fed_rows _ y l (FLevel s (fl_par l) (fl_soft l)) l2 z); [|exact R|exact C].
        unfold feed. rewrite U. reflexivity. }
      destruct (W0 l2 eq_refl) as [Ry Cy].
      assert (Sy : ss_sample (fl_state l2) = y).
      { apply (overwrite_all (ss_sample (fl_state l)) y (fl_state l) (fl_state l2) eq_refl Ry); [|exact RW|].
        - rewrite Cy, E. exact S1.
        - rewrite E. exact S1. }
      assert (Ix : ss_idx (fl_state l2) = Some (range (nrows y))).
      { transitivity (ss_idx (fl_state l)); [rewrite E; exact S4|]. rewrite A2. f_equal. f_equal.
        rewrite <- Sy, E. symmetry. exact S2. }
      cbn [eval_forward]. unfold call. unfold call_own in C.
      destruct (empty_sample (fl_state l2)); [discriminate C|].
      rewrite Sy, Ix in C |- *. rewrite (OC (fl_par l2) y), C.
      apply (IH z r ls2 T A').
      + intros i a b w Na Nb Cw. exact (W (S i) a b w Na Nb Cw).
      + intros b Nb. apply (W 0%nat l2 b z eq_refl Nb). unfold call_own.
        destruct (empty_sample (fl_state l2)) eqn:Em.
        * destruct (train_head None (Some y) l ls r _ H) as [k1 [k2 [w [k3 [_ [_ [C3 [_ E3]]]]]]]].
          injection E3 as <- _. unfold call_own in C3. rewrite Em in C3. discriminate C3.
        * rewrite Sy, Ix. exact C.
  Qed.
  Lemma full_pass_agrees : own_consistent B -> forall (l : flevel) ls r ls',
    train_forward B None None (l :: ls) = (Ok r, ls') ->
    Forall all_selected ls -> wide_enough B ls' ->
    eval_forward B None ls' = Ok r.
  Proof.
    intros OC l ls r ls' H A W.
    destruct (train_head None None l ls r ls' H) as [l1 [l2 [z [ls2 [Fd [R [C [T ->]]]]]]]].
    cbn [eval_forward]. unfold call. rewrite C.
    apply (pass_agrees OC ls z r ls2 T A).
    - intros i a b w Na Nb Cw. exact (W (S i) a b w Na Nb Cw).
    - intros b Nb. exact (W 0%nat l2 b z eq_refl Nb C).
  Qed.

  Lemma train_returns_none : forall (m : fmodel F V P) mode, fst (train_model m mode) = RNone.
  Proof. reflexivity. Qed.
  Lemma train_mode_set : forall (m : fmodel F V P) mode, fm_training (snd (train_model m mode)) = mode.
  Proof. intros m [|]; reflexivity. Qed.
  Lemma train_returns : forall (m : fmodel F V P) (l : ModelForward.flevel F V P) mode,
    fst (train_model m mode) = RNone /\ fst (train_level l mode) = RLevel (snd (train_level l mode)).
  Proof. intros m l mode. split; reflexivity. Qed.
  Lemma evaluation : forall (m : fmodel F V P) x z, fm_training m = false ->
    (fst (forward B m x) = Ok z <-> composed B x (fm_levels m) z) /\ snd (forward B m x) = m.
  Proof.
    intros m x z T. unfold forward. rewrite T. cbn [fst snd]. split; [apply eval_composed | reflexivity].
  Qed.

  (** *** Evaluation mode *)
  Lemma select_all_spec : forall l : ModelForward.flevel F V P,
    fl_par (select_all l) = fl_par l /\ fl_soft (select_all l) = fl_soft l /\
    ss_sample (fl_state (select_all l)) = ss_sample (fl_state l) /\ ss_num (fl_state (select_all l)) = ss_num (fl_state l) /\
    ss_idx (fl_state (select_all l)) = match ss_num (fl_state l) with Some n => Some (range n) | None => ss_idx (fl_state l) end.
  Proof.
    intros [s p b]. unfold select_all, select_idx. cbn [fl_state fl_par fl_soft].
    destruct (ss_num s) as [n|] eqn:N; cbn [snd fl_par fl_soft fl_state].
    - cbn [selection full_request r_idx r_prop snd ss_sample ss_num ss_idx with_cache]. repeat (split; [reflexivity || exact N|]). reflexivity.
    - repeat (split; [reflexivity || exact N|]). reflexivity.
  Qed.
  Lemma model_selected : forall (m : fmodel F V P) i l, nth_error (fm_levels (snd (train_model m false))) i = Some l ->
    exists l0, nth_error (fm_levels m) i = Some l0 /\ fl_par l = fl_par l0 /\ fl_soft l = fl_soft l0 /\
      ss_sample (fl_state l) = ss_sample (fl_state l0) /\ ss_num (fl_state l) = ss_num (fl_state l0) /\
      forall n, ss_num (fl_state l0) = Some n -> ss_idx (fl_state l) = Some (range n).
  Proof.
    intros m i l H. cbn [train_model snd fm_levels model_select_all] in H. rewrite map_map, nth_error_map in H.
    destruct (nth_error (fm_levels m) i) as [l0|] eqn:N; [|discriminate H]. cbn [option_map] in H. injection H as <-.
    exists l0. split; [reflexivity|].
    set (l1 := FLevel _ (fl_par l0) (fl_soft l0)).
    assert (E : ss_sample (fl_state l1) = ss_sample (fl_state l0) /\ ss_num (fl_state l1) = ss_num (fl_state l0)).
    { subst l1. cbn [fl_state]. unfold select_idx. destruct (ss_num (fl_state l0)) as [n|] eqn:K; cbn [snd]; [|split; [reflexivity | exact K]].
      destruct (selection _ _); cbn [snd with_cache ss_sample ss_num]; split; reflexivity || exact K. }
    destruct E as [E1 E2]. destruct (select_all_spec l1) as [A1 [A2 [A3 [A4 A5]]]].
    change (snd (train_level l1 false)) with (select_all l1).
    split; [rewrite A1; reflexivity|]. split; [rewrite A2; reflexivity|]. split; [rewrite A3; exact E1|]. split; [rewrite A4; exact E2|].
    intros n Hn. rewrite A5, E2, Hn. reflexivity.
  Qed.
  Lemma model_selection : forall (m : fmodel F V P) n, fm_num m = Some n -> fm_idx (snd (train_model m false)) = Some (range n).
  Proof. intros m n H. cbn. rewrite H. reflexivity. Qed.
  Lemma model_training : forall m : fmodel F V P, fm_levels (snd (train_model m true)) = fm_levels m /\ fm_idx (snd (train_model m true)) = fm_idx m.
  Proof.
    intros m. cbn [train_model snd fm_levels fm_idx]. split; [|reflexivity].
    rewrite <- (map_id (fm_levels m)) at 2. reflexivity.
  Qed.
  Lemma model_length : forall (m : fmodel F V P) mode, List.length (fm_levels (snd (train_model m mode))) = List.length (fm_levels m).
  Proof. intros m [|]; cbn [train_model snd fm_levels model_select_all]; rewrite !map_length; reflexivity. Qed.
End Proofs.
