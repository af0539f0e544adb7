(** Proofs about models and their levels. *)
From Verif Require Import Base ModelState ModelSpec.
From Coq Require Import Lia.
Open Scope nat_scope.
Open Scope string_scope.
Open Scope list_scope.

(** *** Dimensions are kept by initialisations *)
Definition same_dims (l l' : level) : Prop := lv_out l' = lv_out l /\ lv_in l' = lv_in l.
Lemma same_dims_refl : forall l, same_dims l l.
Proof. intros l; split; reflexivity. Qed.
Lemma same_dims_trans : forall a b c, same_dims a b -> same_dims b c -> same_dims a c.
Proof. intros a b c [A1 A2] [B1 B2]. split; congruence. Qed.

Lemma assign_dual_dims : forall l n q, lv_out l = Some q -> same_dims l (assign_dual l n q).
Proof.
  intros l n q H. unfold assign_dual. destruct (lv_dual l) as [p|].
  - destruct (Nat.eqb (p_rows p) n && Nat.eqb (p_cols p) q) eqn:E.
    + apply andb_true_iff in E. destruct E as [_ E]. apply Nat.eqb_eq in E.
      split; cbn [with_dual lv_out lv_in]; [rewrite H, E; reflexivity | reflexivity].
    + split; cbn [with_dual lv_out lv_in p_cols]; [rewrite H; reflexivity | reflexivity].
  - split; cbn [with_dual lv_out lv_in p_cols]; [rewrite H; reflexivity | reflexivity].
Qed.
Lemma assign_weights_dims : forall l d q, lv_out l = Some q -> same_dims l (snd (assign_weights l d q)).
Proof.
  intros l d q H. unfold assign_weights. destruct (lv_weights l) as [p|].
  - destruct (Nat.eqb (p_cols p) d && Nat.eqb (p_rows p) q) eqn:E.
    + apply andb_true_iff in E. destruct E as [E1 E2]. apply Nat.eqb_eq in E1.
      destruct (Nat.eqb d q) eqn:E3.
      * apply Nat.eqb_eq in E3. split; cbn [snd with_weights lv_out lv_in]; [rewrite H, E1, E3; reflexivity | reflexivity].
      * split; reflexivity.
    + split; cbn [snd with_weights lv_out lv_in p_cols]; [rewrite H; reflexivity | reflexivity].
  - split; cbn [snd with_weights lv_out lv_in p_cols]; [rewrite H; reflexivity | reflexivity].
Qed.
Lemma init_parameters_dims : forall l b, same_dims l (snd (init_parameters l b)).
Proof.
  intros l b. unfold init_parameters.
  destruct (lv_primal l).
  - destruct (b || negb (exists_ (lv_weights l))); [|apply same_dims_refl].
    unfold init_primal. destruct (lv_out l) as [q|] eqn:Q; [|apply same_dims_refl].
    destruct (lv_feat l (lv_in l)) as [d|e]; [|apply same_dims_refl].
    apply assign_weights_dims. exact Q.
  - destruct (b || negb (exists_ (lv_dual l))); [|apply same_dims_refl].
    unfold init_dual. destruct (lv_total l) as [n|]; [|apply same_dims_refl].
    destruct (lv_out l) as [q|] eqn:Q; [|apply same_dims_refl].
    apply assign_dual_dims. exact Q.
Qed.

(** *** Fitting together *)
Fixpoint chain (m : model) : Prop :=
  match m with
  | [] => True
  | l :: m' => match m' with
               | [] => True
               | l' :: _ => exists q, lv_out l = Some q /\ lv_in l' = Some q
               end /\ chain m'
  end.
Lemma chain_fits : forall m, chain m <-> fits_together m.
Proof.
  induction m as [|l m IH]; [split|].
  - intros _ i l l' H. destruct i; discriminate H.
  - intros _. exact I.
  - split.
    + intros [H C] i a b A B. destruct i as [|i].
      * cbn in A. injection A as <-. destruct m as [|x m']; [discriminate B|].
        cbn in B. injection B as <-. exact H.
      * exact (proj1 IH C i a b A B).
    + intros F. split.
      * destruct m as [|x m']; [exact I|]. exact (F 0 l x eq_refl eq_refl).
      * apply (proj2 IH). intros i a b A B. exact (F (S i) a b A B).
Qed.
(** Changing nothing but the input of the first level. *)
Lemma chain_same : forall m m', Forall2 same_dims m m' -> chain m -> chain m'.
Proof.
  intros m m' F. induction F as [|a b m m' [A1 A2] F IH]; [tauto|].
  intros [H C]. split.
  - destruct F as [|x y m m' [X1 X2] F]; [exact I|]. destruct H as [q [H1 H2]].
    exists q. split; congruence.
  - exact (IH C).
Qed.
Lemma same_dims_all : forall m : model, Forall2 same_dims m m.
Proof. induction m; constructor; [apply same_dims_refl | assumption]. Qed.

Lemma last_cons : forall (l x : level) m, last_level (l :: x :: m) = last_level (x :: m).
Proof. reflexivity. Qed.
Lemma last_app : forall (m : model) l, last_level (m ++ [l]) = Some l.
Proof. intros m l. unfold last_level. rewrite map_app. cbn [map]. apply last_last. Qed.
Lemma last_nil : forall m, last_level m = None -> m = [].
Proof.
  intros m H. destruct m as [|a m] using rev_ind; [reflexivity|].
  rewrite last_app in H. discriminate H.
Qed.
Lemma chain_app : forall m l, chain m ->
  (forall p, last_level m = Some p -> exists q, lv_out p = Some q /\ lv_in l = Some q) -> chain (m ++ [l]).
Proof.
  induction m as [|a m IH]; intros l C H; [exact (conj I I)|].
  destruct m as [|b m].
  - cbn. split; [exact (H a eq_refl) | exact (conj I I)].
  - destruct C as [C1 C2]. split; [exact C1|].
    apply IH; [exact C2|]. intros p L. apply H. rewrite last_cons. exact L.
Qed.

Lemma append_chain : forall m a, chain m -> chain (snd (append_level m a)).
Proof.
  intros m a C. unfold append_level.
  destruct (make_level a) as [l|e]; [|exact C].
  destruct (lv_out l); [|exact C].
  set (l1 := match lv_in l with None => _ | Some _ => _ end).
  set (c := match g_constraint a with None => "soft" | Some c => c end).
  destruct (negb _); [exact C|].
  destruct (set_trainable l1 (String.eqb c "soft")) as [[u|e] l2]; [|exact C].
  destruct (last_level m) as [p|] eqn:L.
  - destruct (lv_out p) as [q|] eqn:Q; [|exact C].
    destruct (lv_in l2) as [d|] eqn:D; [|exact C].
    destruct (Nat.eqb q d) eqn:E; [|exact C]. apply Nat.eqb_eq in E. subst d.
    apply chain_app; [exact C|]. intros p' L'. rewrite L in L'. injection L' as <-.
    exists q. split; assumption.
  - apply last_nil in L. subst m. exact (conj I I).
Qed.
Lemma init_sample_chain : forall m n d, chain m -> chain (snd (init_sample m n d)).
Proof.
  intros [|l m] n d C; [exact C|]. destruct C as [C1 C2]. split; [|exact C2].
  destruct m; [exact I|]. exact C1.
Qed.
Lemma set_num_dims : forall l n, same_dims l (snd (set_num_sample l n)).
Proof. intros l n. unfold set_num_sample. destruct (lv_total l); split; reflexivity. Qed.
Lemma init_deeper_dims : forall n ls, Forall2 same_dims ls (snd (init_deeper n ls)).
Proof.
  intros n ls. induction ls as [|l ls IH]; [constructor|].
  cbn [init_deeper]. pose proof (set_num_dims l n) as S.
  destruct (set_num_sample l n) as [[u|e] l1]; cbn [snd] in S |- *.
  - pose proof (init_parameters_dims l1 false) as P.
    destruct (init_parameters l1 false) as [[u'|e] l2]; cbn [snd] in P |- *.
    + destruct (init_deeper n ls) as [r ls2]. cbn [snd] in IH |- *.
      constructor; [exact (same_dims_trans _ _ _ S P) | exact IH].
    + constructor; [exact (same_dims_trans _ _ _ S P) | apply same_dims_all].
  - constructor; [exact S | apply same_dims_all].
Qed.
Lemma init_levels_dims : forall m, Forall2 same_dims m (snd (init_levels m)).
Proof.
  intros [|l ls]; [constructor|]. unfold init_levels.
  pose proof (init_parameters_dims l false) as P.
  destruct (init_parameters l false) as [[u|e] l1]; cbn [snd] in P |- *.
  - destruct ls as [|x ls].
    + constructor; [exact P | constructor].
    + destruct (lv_total l1) as [n|]; [|constructor; [exact P | apply same_dims_all]].
      destruct (lv_sample l1); [|constructor; [exact P | apply same_dims_all]].
      pose proof (init_deeper_dims n (x :: ls)) as D.
      destruct (init_deeper n (x :: ls)) as [r ls1]. cbn [snd] in D |- *.
      constructor; [exact P | exact D].
  - constructor; [exact P | apply same_dims_all].
Qed.

Lemma solve_dims : forall l p, full_rank l p -> same_dims l (snd (solve_level l p)).
Proof.
  intros l p [P [q [Q F]]]. subst p. unfold solve_level.
  destruct (lv_total l) as [n|] eqn:T; [|apply same_dims_refl].
  unfold matrix_size in F. destruct (lv_primal l) eqn:R.
  - destruct (lv_feat l (lv_in l)) as [d|e] eqn:D; [|apply same_dims_refl].
    rewrite Q. pose proof (F d eq_refl) as L.
    assert (M : Nat.min q d - 0 = q) by lia. rewrite M.
    apply (same_dims_trans _ (with_out l (Some q))).
    + split; [cbn [with_out lv_out]; rewrite Q; reflexivity | reflexivity].
    + apply assign_weights_dims. reflexivity.
  - rewrite Q. pose proof (F n T) as L.
    assert (B : Nat.ltb n q = false) by (apply Nat.ltb_ge; exact L). rewrite B.
    rewrite Nat.sub_0_r. cbn [lv_dual with_out].
    destruct (lv_dual l) as [p|].
    + destruct (_ && _);
        (split; [cbn [snd with_out lv_out]; rewrite Q; reflexivity | reflexivity]).
    + split; [cbn [snd with_dual with_out lv_out p_cols]; rewrite Q; reflexivity | reflexivity].
Qed.
Lemma update_nth_dims : forall i p m,
  (forall l, nth_error m i = Some l -> full_rank l p) ->
  Forall2 same_dims m (update_nth i (fun l => snd (solve_level l p)) m).
Proof.
  induction i as [|i IH]; intros p [|l m] H; cbn [update_nth]; try constructor.
  - apply solve_dims. exact (H l eq_refl).
  - apply same_dims_all.
  - apply same_dims_refl.
  - apply IH. exact H.
Qed.
Lemma chain_step : forall m o,
  match o with MSolve i p => forall l, nth_error m i = Some l -> full_rank l p | _ => True end ->
  chain m -> chain (mstep m o).
Proof.
  intros m o H C. destruct o as [a|n d| |i p]; cbn [mstep].
  - apply append_chain. exact C.
  - apply init_sample_chain. exact C.
  - exact (chain_same _ _ (init_levels_dims m) C).
  - exact (chain_same _ _ (update_nth_dims i p m H) C).
Qed.
Lemma run_fits : forall os m, fits_together m -> full_rank_history m os -> fits_together (mrun m os).
Proof.
  intros os. induction os as [|o os IH]; intros m C H; [exact C|].
  destruct H as [H1 H2]. unfold mrun. cbn [fold_left]. apply IH; [|exact H2].
  apply chain_fits. apply chain_step; [exact H1|]. apply chain_fits. exact C.
Qed.
Lemma empty_fits : fits_together [].
Proof. intros i l l' H. destruct i; discriminate H. Qed.

Lemma append_err : forall m a e m', append_level m a = (Err e, m') -> m' = m.
Proof.
  intros m a e m'. unfold append_level.
  destruct (make_level a) as [l|e']; [|intros H; injection H; congruence].
  destruct (lv_out l); [|intros H; injection H; congruence].
  set (l1 := match lv_in l with None => _ | Some _ => _ end).
  set (c := match g_constraint a with None => "soft" | Some c => c end).
  destruct (negb _); [intros H; injection H; congruence|].
  destruct (set_trainable l1 (String.eqb c "soft")) as [[u|e'] l2]; [|intros H; injection H; congruence].
  destruct (last_level m) as [p|]; [|discriminate].
  destruct (lv_out p); [|intros H; injection H; congruence].
  destruct (lv_in l2); [|intros H; injection H; congruence].
  destruct (Nat.eqb _ _); [discriminate | intros H; injection H; congruence].
Qed.

(** *** Appended levels *)
Lemma create_in : forall a l, create a = Ok l ->
  lv_in l = match g_sample a with Some (_, d) => Some d | None => g_in a end.
Proof.
  intros a l. unfold create.
  set (l0 := fun i n => Level i (g_out a) n (exists_ i && exists_ n) (g_primal a) (g_feat a) None None (g_kw a) None (negb (exists_ (g_weight a)))).
  assert (A : forall i n, lv_in (match g_weight a with Some (r, c) => snd (assign_weights (l0 i n) r c) | None => l0 i n end) = i).
  { intros i n. destruct (g_weight a) as [[r c]|]; reflexivity. }
  assert (B : forall i n, lv_in (snd (init_parameters (match g_weight a with Some (r, c) => snd (assign_weights (l0 i n) r c) | None => l0 i n end) true)) = i).
  { intros i n. destruct (init_parameters_dims (match g_weight a with Some (r, c) => snd (assign_weights (l0 i n) r c) | None => l0 i n end) true) as [_ E].
    rewrite E. apply A. }
  assert (G : forall i n l, match init_parameters (match g_weight a with Some (r, c) => snd (assign_weights (l0 i n) r c) | None => l0 i n end) true with
              | (Ok _, l) => Ok l | (Err EAssertionError, l) => Ok l | (Err e, _) => Err e end = Ok l -> lv_in l = i).
  { intros i n l'. pose proof (B i n) as Bi.
    destruct (init_parameters _ true) as [[u|e] l2]; cbn [snd] in Bi.
    - intros H. injection H as <-. exact Bi.
    - destruct e; intros H; try discriminate H. injection H as <-. exact Bi. }
  destruct (g_sample a) as [[n d]|].
  - intros H. exact (G (Some d) (Some n) l H).
  - destruct (g_in a) as [d|]; [intros H; exact (G (Some d) (g_num a) l H)|].
    destruct (g_num a) as [n|]; [discriminate|]. intros H; exact (G None None l H).
Qed.
Lemma append_misfit : forall m a p q d,
  last_level m = Some p -> lv_out p = Some q ->
  match g_sample a with Some (_, d') => Some d' | None => g_in a end = Some d -> d <> q ->
  exists e, append_level m a = (Err e, m).
Proof.
  intros m a p q d L Q D N.
  destruct (append_level m a) as [[u|e] m'] eqn:E.
  - exfalso. unfold append_level in E.
    destruct (make_level a) as [l|e'] eqn:M; [|discriminate E].
    destruct (lv_out l); [|discriminate E].
    assert (I : lv_in l = Some d).
    { unfold make_level in M. destruct (g_type a) as [t|]; [|discriminate M].
      destruct (String.eqb t "kpca"); [|discriminate M]. rewrite (create_in a l M). exact D. }
    rewrite I in E.
    set (c := match g_constraint a with None => "soft" | Some c => c end) in E.
    destruct (negb _) in E; [discriminate E|].
    unfold set_trainable in E. destruct (lv_attr l); [|discriminate E].
    rewrite L, Q in E. cbn [lv_in with_soft] in E. rewrite I in E.
    destruct (Nat.eqb q d) eqn:X; [|discriminate E]. apply Nat.eqb_eq in X. congruence.
  - exists e. rewrite (append_err m a e m' E). reflexivity.
Qed.

(** *** Training twice *)
Lemma init_deeper_total : forall n ls ls', init_deeper n ls = (Ok tt, ls') ->
  Forall (fun l => lv_total l = Some n) ls'.
Proof.
  intros n ls. induction ls as [|l ls IH]; intros ls' H.
  - injection H as <-. constructor.
  - cbn [init_deeper] in H. destruct (set_num_sample l n) as [[u|e] l1] eqn:S; [|discriminate H].
    assert (T : lv_total l1 = Some n).
    { unfold set_num_sample in S. destruct (lv_total l); [discriminate S|]. injection S as _ <-. reflexivity. }
    destruct (init_parameters l1 false) as [[u'|e] l2] eqn:P; [|discriminate H].
    assert (T2 : lv_total l2 = Some n).
    { rewrite <- T. revert P. unfold init_parameters.
      destruct (lv_primal l1).
      - destruct (false || negb (exists_ (lv_weights l1))); [|intros P; injection P as _ <-; reflexivity].
        unfold init_primal. destruct (lv_out l1); [|discriminate].
        destruct (lv_feat l1 (lv_in l1)); [|discriminate]. unfold assign_weights.
        destruct (lv_weights l1) as [p|].
        + destruct (_ && _); [destruct (Nat.eqb _ _); [|discriminate]|]; intros P; injection P as _ <-; reflexivity.
        + intros P; injection P as _ <-; reflexivity.
      - destruct (false || negb (exists_ (lv_dual l1))); [|intros P; injection P as _ <-; reflexivity].
        unfold init_dual. destruct (lv_total l1) eqn:TT; [|discriminate].
        destruct (lv_out l1); [|discriminate]. unfold assign_dual.
        destruct (lv_dual l1) as [p|]; [destruct (_ && _)|]; intros P; injection P as _ <-; exact TT. }
    destruct (init_deeper n ls) as [r ls2]. injection H as -> <-.
    constructor; [exact T2 | exact (IH ls2 eq_refl)].
Qed.

(** Initialised parameters exist. *)
Lemma init_exists : forall l b l', init_parameters l b = (Ok tt, l') ->
  lv_primal l' = lv_primal l /\
  exists_ (if lv_primal l then lv_weights l' else lv_dual l') = true.
Proof.
  intros l b l'. unfold init_parameters. destruct (lv_primal l) eqn:R.
  - destruct (b || negb (exists_ (lv_weights l))) eqn:B.
    + unfold init_primal. destruct (lv_out l); [|discriminate].
      destruct (lv_feat l (lv_in l)); [|discriminate]. unfold assign_weights.
      destruct (lv_weights l) as [p|].
      * destruct (_ && _); [destruct (Nat.eqb _ _); [|discriminate]|]; intros H; injection H as <-; split; (exact R || reflexivity).
      * intros H; injection H as <-; split; (exact R || reflexivity).
    + intros H; injection H as <-. split; [exact R|].
      apply orb_false_iff in B. destruct B as [_ B]. apply negb_false_iff in B. exact B.
  - destruct (b || negb (exists_ (lv_dual l))) eqn:B.
    + unfold init_dual. destruct (lv_total l); [|discriminate].
      destruct (lv_out l); [|discriminate]. unfold assign_dual.
      destruct (lv_dual l) as [p|]; [destruct (_ && _)|]; intros H; injection H as <-; split; (exact R || reflexivity).
    + intros H; injection H as <-. split; [exact R|].
      apply orb_false_iff in B. destruct B as [_ B]. apply negb_false_iff in B. exact B.
Qed.
Lemma init_again : forall l, exists_ (if lv_primal l then lv_weights l else lv_dual l) = true ->
  init_parameters l false = (Ok tt, l).
Proof. intros l H. unfold init_parameters. destruct (lv_primal l); rewrite H; reflexivity. Qed.

Lemma train_once_more : forall l n d m1 n' d',
  init_training [l] n d = (Ok tt, m1) -> fst (init_training m1 n' d') = Ok tt.
Proof.
  intros l n d m1 n' d' H. unfold init_training in *. cbn [init_sample] in H.
  set (l0 := with_total _ _ _) in H. cbn [init_levels] in H.
  destruct (init_parameters l0 false) as [[u|e] l1] eqn:P; [|discriminate H].
  injection H as <-. destruct u. destruct (init_exists _ _ _ P) as [R X].
  cbn [init_sample init_levels].
  set (l2 := with_total _ _ _).
  assert (E : init_parameters l2 false = (Ok tt, l2)).
  { apply init_again. change (lv_primal l2) with (lv_primal l1). rewrite R. exact X. }
  rewrite E. reflexivity.
Qed.
Lemma train_twice_fails : forall l x ls n d m1 n' d',
  init_training (l :: x :: ls) n d = (Ok tt, m1) ->
  fst (init_training m1 n' d') = Err EAssertionError.
Proof.
  intros l x ls n d m1 n' d' H. unfold init_training in *. cbn [init_sample] in H.
  set (l0 := with_total _ _ _) in H. cbn [init_levels] in H.
  destruct (init_parameters l0 false) as [[u|e] l1] eqn:P; [|discriminate H].
  destruct u. destruct (init_exists _ _ _ P) as [R X].
  destruct (lv_total l1) as [k|] eqn:T; [|discriminate H].
  destruct (lv_sample l1) eqn:S; [|discriminate H].
  destruct (init_deeper k (x :: ls)) as [r ls1] eqn:D. injection H as -> <-.
  pose proof (init_deeper_total k (x :: ls) ls1 D) as F.
  assert (N : exists y ys, ls1 = y :: ys).
  { pose proof (init_deeper_dims k (x :: ls)) as F2. rewrite D in F2. cbn [snd] in F2. inversion F2 as [|a b m m' Hab Hm Ha Hb]. exists b, m'. reflexivity. }
  destruct N as [y [ys ->]].
  cbn [init_sample init_levels].
  set (l2 := with_total _ _ _).
  assert (E : init_parameters l2 false = (Ok tt, l2)).
  { apply init_again. change (lv_primal l2) with (lv_primal l1). rewrite R. exact X. }
  rewrite E. change (lv_total l2) with (Some n'). change (lv_sample l2) with true.
  cbv iota. cbn [init_deeper]. inversion F as [|b m Hb Hm Eq]. subst b m.
  unfold set_num_sample. rewrite Hb. reflexivity.
Qed.

(** *** Which parameters are trained *)
Definition own (l : level) : option param := if lv_primal l then lv_weights l else lv_dual l.
Lemma optimised_own : forall l, optimised l = match own l with Some p => p_grad p | None => false end.
Proof. reflexivity. Qed.

Definition dual_of {A} (r : A * level) := lv_dual (snd r).
Lemma init_optimised : forall l l', init_parameters l false = (Ok tt, l') ->
  optimised l' = (if exists_ (own l) then optimised l else lv_kw l).
Proof.
  intros l l'. unfold init_parameters, optimised, own. destruct (lv_primal l) eqn:R.
  - destruct (exists_ (lv_weights l)) eqn:B; cbn [orb negb].
    + intros H; injection H as <-. rewrite R. reflexivity.
    + unfold init_primal. destruct (lv_out l); [|discriminate].
      destruct (lv_feat l (lv_in l)); [|discriminate]. unfold assign_weights.
      destruct (lv_weights l) as [p|]; [discriminate B|].
      intros H; injection H as <-. cbn [with_weights lv_primal lv_weights p_grad]. rewrite R. reflexivity.
  - destruct (exists_ (lv_dual l)) eqn:B; cbn [orb negb].
    + intros H; injection H as <-. rewrite R. reflexivity.
    + unfold init_dual. destruct (lv_total l); [|discriminate].
      destruct (lv_out l); [|discriminate]. unfold assign_dual.
      destruct (lv_dual l) as [p|]; [discriminate B|].
      intros H; injection H as <-. cbn [with_dual lv_primal lv_dual p_grad]. rewrite R. reflexivity.
Qed.
Lemma init_deeper_optimised : forall n ls ls', init_deeper n ls = (Ok tt, ls') ->
  forall i l, nth_error ls i = Some l ->
  exists l', nth_error ls' i = Some l' /\ optimised l' = (if exists_ (own l) then optimised l else lv_kw l).
Proof.
  intros n ls. induction ls as [|x ls IH]; intros ls' H i l N; [destruct i; discriminate N|].
  cbn [init_deeper] in H. destruct (set_num_sample x n) as [[u|e] l1] eqn:S; [|discriminate H].
  destruct (init_parameters l1 false) as [[u'|e] l2] eqn:P; [|discriminate H].
  destruct (init_deeper n ls) as [r ls2] eqn:D. injection H as -> <-.
  destruct i as [|i].
  - injection N as <-. exists l2. split; [reflexivity|]. destruct u'.
    rewrite (init_optimised l1 l2 P).
    unfold set_num_sample in S. destruct (lv_total x); [discriminate S|]. injection S as _ <-. reflexivity.
  - exact (IH ls2 eq_refl i l N).
Qed.
Lemma init_training_optimised : forall m n d m', init_training m n d = (Ok tt, m') ->
  forall i l, nth_error m i = Some l ->
  exists l', nth_error m' i = Some l' /\ optimised l' = (if exists_ (own l) then optimised l else lv_kw l).
Proof.
  intros m n d m' H i l N. unfold init_training in H.
  destruct m as [|x ls]; [discriminate H|]. cbn [init_sample] in H.
  set (x0 := with_total _ _ _) in H. cbn [init_levels] in H.
  destruct (init_parameters x0 false) as [[u|e] l1] eqn:P; [|discriminate H].
  destruct u. pose proof (init_optimised x0 l1 P) as O.
  destruct ls as [|y ls].
  - injection H as <-. destruct i as [|i]; [|destruct i; discriminate N].
    injection N as <-. exists l1. split; [reflexivity | exact O].
  - destruct (lv_total l1) as [k|]; [|discriminate H].
    destruct (lv_sample l1); [|discriminate H].
    destruct (init_deeper k (y :: ls)) as [r ls1] eqn:D. injection H as -> <-.
    destruct i as [|i].
    + injection N as <-. exists l1. split; [reflexivity | exact O].
    + exact (init_deeper_optimised k (y :: ls) ls1 D i l N).
Qed.

(** What a created level looks like. *)
Definition given_data (a : largs) : bool := exists_ (g_sample a) || (exists_ (g_in a) && exists_ (g_num a)).
Lemma given_data_spec : forall a, given_data a = true <-> with_data a.
Proof.
  intros a. unfold given_data, with_data. rewrite orb_true_iff, andb_true_iff. tauto.
Qed.
Definition made (a : largs) (l : level) : Prop :=
  lv_kw l = g_kw a /\ lv_primal l = g_primal a /\
  (forall p, lv_weights l = Some p -> p_grad p = g_kw a) /\
  (forall p, lv_dual l = Some p -> p_grad p = g_kw a) /\
  (lv_out l <> None -> g_primal a = false -> exists_ (lv_dual l) = given_data a).
Lemma create_made : forall a l, create a = Ok l -> made a l.
Proof.
  intros a l. unfold create.
  set (l0 := fun i n => Level i (g_out a) n (exists_ i && exists_ n) (g_primal a) (g_feat a) None None (g_kw a) None (negb (exists_ (g_weight a)))).
  set (l1 := fun i n => match g_weight a with Some (r, c) => snd (assign_weights (l0 i n) r c) | None => l0 i n end).
  assert (A : forall i n, lv_kw (l1 i n) = g_kw a /\ lv_primal (l1 i n) = g_primal a /\ lv_total (l1 i n) = n /\
                lv_dual (l1 i n) = None /\
                (forall p, lv_weights (l1 i n) = Some p -> p_grad p = g_kw a)).
  { intros i n. unfold l1. destruct (g_weight a) as [[r c]|].
    - repeat (split; [reflexivity|]). intros p H. cbn in H. injection H as <-. reflexivity.
    - repeat (split; [reflexivity|]). intros p H. discriminate H. }
  assert (G : forall i n l, match init_parameters (l1 i n) true with
              | (Ok _, l) => Ok l | (Err EAssertionError, l) => Ok l | (Err e, _) => Err e end = Ok l ->
              given_data a = exists_ n -> made a l).
  { clearbody l1. clear l0. intros i n l' H D. destruct (A i n) as [K [R [T [U W]]]].
    assert (Z : made a (l1 i n) \/ (g_primal a = false /\ exists_ n = true /\ lv_out (l1 i n) <> None)).
    { destruct (g_primal a) eqn:GP.
      - left. unfold made. rewrite U, GP. repeat split; try assumption; intros; discriminate.
      - destruct n as [k|].
        + destruct (lv_out (l1 i (Some k))) eqn:Q.
          * right. repeat split; discriminate.
          * left. unfold made. rewrite U, GP. repeat split; try assumption; intros; congruence.
        + left. unfold made. rewrite U, GP, D. repeat split; try assumption; intros; discriminate. }
    unfold init_parameters in H. rewrite R in H.
    destruct (g_primal a) eqn:GP.
    - destruct Z as [Z|[Z _]]; [|discriminate Z].
      cbn [orb] in H. unfold init_primal in H. destruct (lv_out (l1 i n)) as [q|] eqn:Q.
      + destruct (lv_feat (l1 i n) (lv_in (l1 i n))) as [d|e].
        * assert (Y : forall p, p_grad p = g_kw a -> made a (with_weights (l1 i n) p)).
          { intros p E. unfold made. cbn [with_weights lv_weights lv_dual lv_out lv_kw lv_primal].
            rewrite GP. repeat split; try assumption; try (intros; discriminate).
            intros p' E'. injection E' as <-. exact E. }
          unfold assign_weights in H. destruct (lv_weights (l1 i n)) as [p|] eqn:WE.
          -- destruct (Nat.eqb (p_cols p) d && Nat.eqb (p_rows p) q).
             ++ destruct (Nat.eqb d q); [|discriminate H]. injection H as <-. apply Y. exact (W p eq_refl).
             ++ injection H as <-. apply Y. exact K.
          -- injection H as <-. apply Y. exact K.
        * destruct e; try discriminate H. injection H as <-. exact Z.
      + injection H as <-. exact Z.
    - cbn [orb] in H. unfold init_dual in H. rewrite T in H. destruct n as [k|].
      + destruct (lv_out (l1 i (Some k))) as [q|] eqn:Q.
        * unfold assign_dual in H. rewrite U in H. injection H as <-.
          unfold made. cbn [with_dual lv_weights lv_dual lv_out lv_kw lv_primal].
          rewrite GP. repeat split; try assumption.
          -- intros p' E. injection E as <-. exact K.
          -- intros _ _. rewrite D. reflexivity.
        * injection H as <-. destruct Z as [Z|[_ [_ Z]]]; [exact Z | congruence].
      + injection H as <-. destruct Z as [Z|[_ [Z _]]]; [exact Z | discriminate Z]. }
  destruct (g_sample a) as [[n d]|] eqn:S.
  - intros H. apply (G (Some d) (Some n) l H). unfold given_data. rewrite S. reflexivity.
  - destruct (g_in a) as [d|] eqn:I.
    + intros H. apply (G (Some d) (g_num a) l H). unfold given_data. rewrite S, I. reflexivity.
    + destruct (g_num a) as [n|] eqn:N; [discriminate|].
      intros H. apply (G None None l H). unfold given_data. rewrite S, I. reflexivity.
Qed.

Definition is_soft (a : largs) : bool := String.eqb (match g_constraint a with None => "soft" | Some c => c end) "soft".
Lemma append_ok : forall m a m', append_level m a = (Ok tt, m') ->
  exists l, m' = m ++ [l] /\
    lv_kw l = g_kw a /\ lv_primal l = g_primal a /\ lv_soft l = Some (is_soft a) /\
    (forall p, lv_weights l = Some p -> p_grad p = g_kw a) /\
    (forall p, lv_dual l = Some p -> p_grad p = is_soft a) /\
    (g_primal a = false -> exists_ (lv_dual l) = given_data a).
Proof.
  intros m a m' H. unfold append_level in H.
  destruct (make_level a) as [l|e] eqn:M; [|discriminate H].
  assert (C : made a l).
  { unfold make_level in M. destruct (g_type a) as [t|]; [|discriminate M].
    destruct (String.eqb t "kpca"); [|discriminate M]. exact (create_made a l M). }
  destruct C as [K [R [W [U E]]]].
  destruct (lv_out l) as [q|] eqn:Q; [|discriminate H].
  assert (NQ : Some q <> None) by discriminate. specialize (E NQ).
  set (l1 := match lv_in l with None => _ | Some _ => _ end) in H.
  assert (L1 : lv_kw l1 = lv_kw l /\ lv_primal l1 = lv_primal l /\ lv_weights l1 = lv_weights l /\ lv_dual l1 = lv_dual l).
  { unfold l1. destruct (lv_in l); [repeat split; reflexivity|].
    destruct (last_level m); repeat split; reflexivity. }
  clearbody l1. destruct L1 as [L1k [L1p [L1w L1d]]].
  destruct (negb _) in H; [discriminate H|].
  assert (ST : forall l2, set_trainable l1 (is_soft a) = (Ok tt, l2) ->
    lv_kw l2 = g_kw a /\ lv_primal l2 = g_primal a /\ lv_soft l2 = Some (is_soft a) /\
    (forall p, lv_weights l2 = Some p -> p_grad p = g_kw a) /\
    (forall p, lv_dual l2 = Some p -> p_grad p = is_soft a) /\
    (g_primal a = false -> exists_ (lv_dual l2) = given_data a)).
  { intros l2 S. unfold set_trainable in S. destruct (lv_attr l1); [|discriminate S].
    injection S as <-. cbn [with_soft lv_kw lv_primal lv_soft lv_weights lv_dual].
    rewrite L1k, L1p, L1w, L1d.
    split; [exact K|]. split; [exact R|]. split; [reflexivity|]. split; [exact W|]. split.
    - intros p H'. destruct (lv_dual l); [|discriminate H']. injection H' as <-. reflexivity.
    - intros H'. rewrite <- (E H'). destruct (lv_dual l); reflexivity. }
  unfold is_soft in ST at 1. fold (is_soft a) in ST.
  destruct (set_trainable l1 _) as [[u|e] l2] in H, ST; [|discriminate H]. destruct u.
  specialize (ST l2 eq_refl).
  assert (X : m' = m ++ [l2]).
  { destruct (last_level m) as [p|]; [|injection H as <-; reflexivity].
    destruct (lv_out p); [|discriminate H]. destruct (lv_in l2); [|discriminate H].
    destruct (Nat.eqb _ _); [|discriminate H]. injection H as <-. reflexivity. }
  exists l2. split; [exact X | exact ST].
Qed.

(** Which parameters of an appended level are trained, once initialised. *)
Lemma trained_exactly : forall m a m1 n d m2,
  append_level m a = (Ok tt, m1) -> init_training m1 n d = (Ok tt, m2) ->
  exists l, nth_error m2 (List.length m) = Some l /\
    optimised l = if negb (g_primal a) && given_data a then is_soft a else g_kw a.
Proof.
  intros m a m1 n d m2 A T. destruct (append_ok m a m1 A) as [l [-> [K [R [_ [W [U E]]]]]]].
  assert (N : nth_error (m ++ [l]) (List.length m) = Some l).
  { rewrite nth_error_app2 by lia. rewrite Nat.sub_diag. reflexivity. }
  destruct (init_training_optimised _ n d m2 T _ l N) as [l' [N' O]].
  exists l'. split; [exact N'|]. rewrite O. unfold optimised, own. rewrite R.
  destruct (g_primal a) eqn:GP; cbn [negb andb].
  - destruct (lv_weights l) as [p|]; cbn [exists_]; [exact (W p eq_refl) | exact K].
  - rewrite <- (E eq_refl). destruct (lv_dual l) as [p|]; cbn [exists_]; [exact (U p eq_refl) | exact K].
Qed.

(** *** Numbers of points after an initialisation *)
Lemma fresh_rows : forall l n d m1, init_training [l] n d = (Ok tt, m1) ->
  lv_primal l = false -> lv_dual l = None ->
  exists l1 p, m1 = [l1] /\ lv_dual l1 = Some p /\ p_rows p = n.
Proof.
  intros l n d m1 H R U. unfold init_training in H. cbn [init_sample init_levels] in H.
  unfold init_parameters in H.
  cbn [with_total with_in lv_primal lv_dual] in H. rewrite R, U in H. cbn [orb negb exists_] in H.
  unfold init_dual in H. cbn [with_total with_in lv_total lv_out] in H.
  destruct (lv_out l) as [q|]; [|discriminate H]. unfold assign_dual in H.
  cbn [with_total with_in lv_dual lv_kw] in H. rewrite U in H. injection H as <-.
  eexists. eexists. split; [reflexivity|]. split; reflexivity.
Qed.
Lemma stale_rows : forall l n d n' d' m1 m2, init_training [l] n d = (Ok tt, m1) ->
  lv_primal l = false -> lv_dual l = None ->
  init_training m1 n' d' = (Ok tt, m2) ->
  exists l2 p, m2 = [l2] /\ lv_total l2 = Some n' /\ lv_dual l2 = Some p /\ p_rows p = n.
Proof.
  intros l n d n' d' m1 m2 H R U H2.
  assert (R1 : exists l1 p, m1 = [l1] /\ lv_dual l1 = Some p /\ p_rows p = n /\ lv_primal l1 = false).
  { destruct (fresh_rows l n d m1 H R U) as [l1 [p [E1 [E2 E3]]]]. exists l1, p.
    repeat (split; [assumption|]).
    unfold init_training in H. cbn [init_sample init_levels] in H.
    destruct (init_parameters _ false) as [[u|e] x] eqn:P; [|discriminate H].
    injection H as H. destruct u. destruct (init_exists _ _ _ P) as [Q _].
    assert (x = l1) by congruence. subst x. rewrite Q. exact R. }
  destruct R1 as [l1 [p [-> [D [N P]]]]].
  unfold init_training in H2. cbn [init_sample init_levels] in H2.
  set (l2 := with_total _ _ _) in H2.
  assert (E : init_parameters l2 false = (Ok tt, l2)).
  { apply init_again. change (lv_primal l2) with (lv_primal l1). rewrite P.
    change (lv_dual l2) with (lv_dual l1). rewrite D. reflexivity. }
  rewrite E in H2. injection H2 as <-. exists l2, p. repeat split; assumption.
Qed.

(** *** Solving a level that lacks points *)
Lemma solve_out : forall l p n q, lv_primal l = false -> lv_total l = Some n -> lv_out l = Some q ->
  lv_out (snd (solve_level l p)) = Some (Nat.min q n - p).
Proof.
  intros l p n q R T O. unfold solve_level. rewrite T, R, O.
  destruct (Nat.ltb_spec n q) as [L|L].
  - cbn [without_dual with_out lv_dual]. cbn [snd with_dual lv_out p_cols]. f_equal. lia.
  - replace (Nat.min q n) with q by lia. cbn [with_out lv_dual].
    destruct (lv_dual l) as [x|]; [|reflexivity]. destruct (_ && _); reflexivity.
Qed.
Lemma solve_breaks : forall l l' m p n q, fits_together (l :: l' :: m) ->
  lv_primal l = false -> lv_total l = Some n -> lv_out l = Some q -> Nat.min q n - p <> q ->
  ~ fits_together (mrun (l :: l' :: m) [MSolve 0 p]).
Proof.
  intros l l' m p n q F R T O N G. destruct (F 0 l l' eq_refl eq_refl) as [a [A B]].
  unfold mrun in G. cbn [fold_left mstep update_nth] in G.
  destruct (G 0 (snd (solve_level l p)) l' eq_refl eq_refl) as [b [C D]].
  rewrite (solve_out l p n q R T O) in C. injection C as <-. congruence.
Qed.
Lemma soft_optimised_kw : forall m a m1 n d m2,
  append_level m a = (Ok tt, m1) -> init_training m1 n d = (Ok tt, m2) -> soft_constraint a ->
  exists l, nth_error m2 (List.length m) = Some l /\ (optimised l = true <-> ((g_primal a = false /\ with_data a) \/ g_kw a = true)).
Proof.
  intros m a m1 n d m2 A T S. destruct (trained_exactly m a m1 n d m2 A T) as [l [N O]]. exists l. split; [exact N|].
  rewrite O. rewrite <- given_data_spec.
  assert (X : is_soft a = true) by (unfold is_soft; destruct S as [-> | ->]; reflexivity).
  rewrite X. destruct (g_primal a), (given_data a), (g_kw a); cbn; intuition congruence.
Qed.
Lemma hard_optimised_kw : forall m a m1 n d m2,
  append_level m a = (Ok tt, m1) -> init_training m1 n d = (Ok tt, m2) -> g_constraint a = Some "hard" ->
  exists l, nth_error m2 (List.length m) = Some l /\ (optimised l = false <-> ((g_primal a = false /\ with_data a) \/ g_kw a = false)).
Proof.
  intros m a m1 n d m2 A T S. destruct (trained_exactly m a m1 n d m2 A T) as [l [N O]]. exists l. split; [exact N|].
  rewrite O. rewrite <- given_data_spec.
  assert (X : is_soft a = false) by (unfold is_soft; rewrite S; reflexivity).
  rewrite X. destruct (g_primal a), (given_data a), (g_kw a); cbn; intuition congruence.
Qed.
Lemma soft_not_optimised : forall m a m1 n d m2,
  append_level m a = (Ok tt, m1) -> init_training m1 n d = (Ok tt, m2) -> soft_constraint a ->
  g_kw a = false -> g_primal a = true \/ ~ with_data a ->
  exists l, nth_error m2 (List.length m) = Some l /\ optimised l = false.
Proof.
  intros m a m1 n d m2 A T S K C. destruct (soft_optimised_kw m a m1 n d m2 A T S) as [l [N O]]. exists l. split; [exact N|].
  destruct (optimised l); [|reflexivity]. destruct (proj1 O eq_refl) as [[X Y]|X]; [|congruence].
  destruct C as [C|C]; [congruence | contradiction].
Qed.
Lemma soft_optimised : forall m a m1 n d m2,
  append_level m a = (Ok tt, m1) -> init_training m1 n d = (Ok tt, m2) -> soft_constraint a ->
  (g_primal a = false /\ with_data a) \/ g_kw a = true ->
  exists l, nth_error m2 (List.length m) = Some l /\ optimised l = true.
Proof.
  intros m a m1 n d m2 A T S C. destruct (soft_optimised_kw m a m1 n d m2 A T S) as [l [N O]]. exists l. split; [exact N|].
  exact (proj2 O C).
Qed.
Lemma hard_optimised : forall m a m1 n d m2,
  append_level m a = (Ok tt, m1) -> init_training m1 n d = (Ok tt, m2) -> g_constraint a = Some "hard" ->
  g_kw a = true -> g_primal a = true \/ ~ with_data a ->
  exists l, nth_error m2 (List.length m) = Some l /\ optimised l = true.
Proof.
  intros m a m1 n d m2 A T S K C. destruct (hard_optimised_kw m a m1 n d m2 A T S) as [l [N O]]. exists l. split; [exact N|].
  destruct (optimised l); [reflexivity|]. destruct (proj1 O eq_refl) as [[X Y]|X]; [|congruence].
  destruct C as [C|C]; [congruence | contradiction].
Qed.
Lemma hard_not_optimised : forall m a m1 n d m2,
  append_level m a = (Ok tt, m1) -> init_training m1 n d = (Ok tt, m2) -> g_constraint a = Some "hard" ->
  g_kw a = false ->
  exists l, nth_error m2 (List.length m) = Some l /\ optimised l = false.
Proof.
  intros m a m1 n d m2 A T S K. destruct (hard_optimised_kw m a m1 n d m2 A T S) as [l [N O]]. exists l. split; [exact N|].
  exact (proj2 O (or_intror K)).
Qed.

(** *** Solving again *)
Lemma solve_again_dual : forall l p pruned n q, lv_primal l = false -> lv_total l = Some n -> lv_out l = Some q -> lv_dual l = Some p ->
  (fst (solve_level l pruned) = Ok tt <->
   n < q \/ ((p_rows p = n \/ n = 1) /\ (p_cols p = q - pruned \/ q - pruned = 1))) /\
  (fst (solve_level l pruned) <> Ok tt -> fst (solve_level l pruned) = Err ERuntimeError).
Proof.
  intros l p pruned n q R T O D. unfold solve_level. rewrite T, R, O.
  destruct (Nat.ltb_spec n q) as [L|L].
  - cbn [without_dual with_out lv_dual fst]. split; [|intros N; exfalso; apply N; reflexivity].
    split; [intros _; left; exact L | intros _; reflexivity].
  - cbn [with_out lv_dual]. rewrite D.
    assert (B : ((Nat.eqb (p_rows p) n || Nat.eqb n 1) && (Nat.eqb (p_cols p) (q - pruned) || Nat.eqb (q - pruned) 1))%bool = true <->
                ((p_rows p = n \/ n = 1) /\ (p_cols p = q - pruned \/ q - pruned = 1))).
    { rewrite andb_true_iff, !orb_true_iff, !Nat.eqb_eq. reflexivity. }
    destruct (_ && _)%bool.
    + cbn [fst]. split; [|intros N; exfalso; apply N; reflexivity].
      split; [intros _; right; apply B; reflexivity | intros _; reflexivity].
    + cbn [fst]. split; [|intros _; reflexivity].
      split; [intros H; discriminate H|]. intros [H|H]; [lia|]. apply B in H. discriminate H.
Qed.
Lemma solve_first : forall l l1 n q, lv_primal l = false -> lv_total l = Some n -> lv_out l = Some q -> q <= n -> lv_dual l = None ->
  solve_level l 0 = (Ok tt, l1) ->
  lv_primal l1 = false /\ lv_total l1 = Some n /\ lv_out l1 = Some q /\ exists p, lv_dual l1 = Some p /\ p_rows p = n /\ p_cols p = q.
Proof.
  intros l l1 n q R T O L D H. unfold solve_level in H. rewrite T, R, O in H.
  assert (B : Nat.ltb n q = false) by (apply Nat.ltb_ge; exact L). rewrite B in H.
  cbn [with_out lv_dual] in H. rewrite D, Nat.sub_0_r in H. injection H as <-.
  cbn [with_dual with_out lv_primal lv_total lv_out lv_dual p_cols].
  split; [exact R|]. split; [exact T|]. split; [reflexivity|].
  eexists. split; [reflexivity|]. split; reflexivity.
Qed.
Lemma solve_other_points : forall l l1 l2 n q n' d', lv_primal l = false -> lv_total l = Some n -> lv_out l = Some q -> q <= n ->
  lv_dual l = None -> solve_level l 0 = (Ok tt, l1) -> init_sample [l1] n' d' = (Ok tt, [l2]) ->
  n' <> n -> n' <> 1 -> q <= n' -> forall pruned, fst (solve_level l2 pruned) = Err ERuntimeError.
Proof.
  intros l l1 l2 n q n' d' R T O L D H1 H2 N N1 L' pruned.
  destruct (solve_first l l1 n q R T O L D H1) as [R1 [T1 [O1 [p [D1 [P1 P2]]]]]].
  cbn [init_sample] in H2. injection H2 as <-.
  destruct (solve_again_dual (with_total (with_in l1 (Some d') true) (Some n') true) p pruned n' q R1 eq_refl O1 D1) as [I E].
  apply E. intros K. apply I in K. destruct K as [K|[[K|K] _]]; [lia | congruence | congruence].
Qed.
Lemma solve_pruned : forall l l1 n q pruned, lv_primal l = false -> lv_total l = Some n -> lv_out l = Some q -> q <= n ->
  lv_dual l = None -> solve_level l 0 = (Ok tt, l1) -> 0 < q -> 0 < pruned -> q - pruned <> 1 ->
  fst (solve_level l1 pruned) = Err ERuntimeError.
Proof.
  intros l l1 n q pruned R T O L D H1 Q P N1.
  destruct (solve_first l l1 n q R T O L D H1) as [R1 [T1 [O1 [p [D1 [P1 P2]]]]]].
  destruct (solve_again_dual l1 p pruned n q R1 T1 O1 D1) as [I E].
  apply E. intros K. apply I in K. destruct K as [K|[_ [K|K]]]; lia.
Qed.
Lemma solve_again_primal : forall l p pruned n d, lv_primal l = true -> lv_total l = Some n -> lv_weights l = Some p ->
  p_cols p <= p_rows p -> lv_feat l (lv_in l) = Ok d ->
  exists l1, solve_level l pruned = (Ok tt, l1) /\ lv_dual l1 = None /\
    exists q w, lv_out l1 = Some q /\ lv_weights l1 = Some w /\ p_rows w = d /\ p_cols w = q /\ q <= d.
Proof.
  intros l p pruned n d R T W C F. unfold solve_level. rewrite T, R, F.
  set (q := (match lv_out l with Some q => Nat.min q d | None => d end) - pruned).
  assert (Q : q <= d) by (subst q; destruct (lv_out l); lia). clearbody q.
  unfold assign_weights. cbn [with_out lv_weights]. rewrite W.
  destruct (Nat.eqb (p_cols p) d && Nat.eqb (p_rows p) q)%bool eqn:B.
  - apply andb_true_iff in B. destruct B as [B1 B2]. apply Nat.eqb_eq in B1. apply Nat.eqb_eq in B2.
    assert (E : d = q) by lia. rewrite <- E, Nat.eqb_refl.
    eexists. split; [reflexivity|]. split; [reflexivity|].
    exists (p_cols p), p. cbn. split; [reflexivity|]. split; [reflexivity|]. lia.
  - eexists. split; [reflexivity|]. split; [reflexivity|].
    exists q, (Param d q (lv_kw l)). cbn. split; [reflexivity|]. split; [reflexivity|]. lia.
Qed.
