(** Histories of the variables of a level: proofs. *)
From Verif Require Import Base Cache Sample ViewState ViewSpec ViewProofs.
Open Scope nat_scope.

Section View.
  Context {F : Type}.
  Notation tensor := (@tensor F).
  Variable orth : nat -> nat -> tensor.

  (** ** Assigning one kind of variables *)
  Theorem primal_unsets_dual (s : view F) v : fst (set_primal s v) = Ok tt -> unset (get_dual (snd (set_primal s v))).
  Proof.
    unfold set_primal. destruct (v_attached s); [discriminate|]. destruct v as [t|]; [|intros _; reflexivity].
    destruct (exists_ _ && _ && _)%bool.
    - destruct (copy_into _ t) as [t'|e]; [|discriminate]. destruct (get_primal _) as [w|e]; [|discriminate]. intros _. reflexivity.
    - destruct (get_primal _) as [w|e]; [|discriminate]. intros _. reflexivity.
  Qed.
  Lemma set_dual_frame (s : view F) v : v_primal (set_dual s v) = v_primal s /\ v_attached (set_dual s v) = v_attached s.
  Proof. unfold set_dual. destruct v as [t|]; [|now split]. destruct (exists_ _ && _ && _)%bool; now split. Qed.
  Lemma init_dual_frame (s : view F) : v_primal (snd (init_dual orth s)) = v_primal s /\ v_attached (snd (init_dual orth s)) = v_attached s.
  Proof. unfold init_dual. destruct (v_total s), (v_out s); try (now split). apply set_dual_frame. Qed.
  Lemma update_dual_frame (s : view F) v : v_primal (snd (update_dual orth s v)) = v_primal s /\ v_attached (snd (update_dual orth s v)) = v_attached s.
  Proof.
    unfold update_dual. assert (H : forall c : bool, v_primal (snd (if c then (Ok tt, s) else init_dual orth s)) = v_primal s /\
      v_attached (snd (if c then (Ok tt, s) else init_dual orth s)) = v_attached s) by (intros []; [now split|apply init_dual_frame]).
    specialize (H (exists_ (v_dual s))). destruct (if exists_ _ then _ else _) as [[u|e] s1]; cbn [fst snd] in *; [|exact H].
    destruct (bind _ _); exact H.
  Qed.
  Theorem dual_keeps_primal (s : view F) v : get_primal (set_dual s v) = get_primal s.
  Proof. unfold get_primal. destruct (set_dual_frame s v) as (-> & ->). reflexivity. Qed.
  Theorem update_keeps_primal (s : view F) v : get_primal (snd (update_dual orth s v)) = get_primal s.
  Proof. unfold get_primal. destruct (update_dual_frame s v) as (-> & ->). reflexivity. Qed.
  Theorem stale_primal (W : tensor -> tensor) (s : view F) h w : get_primal s = Ok w -> W h <> w ->
    get_primal (set_dual s (Some h)) = Ok w /\ get_primal (set_dual s (Some h)) <> Ok (W h) /\ ~ unset (get_primal (set_dual s (Some h))).
  Proof.
    intros E N. rewrite dual_keeps_primal, E. split; [reflexivity|]. split; [intros H; injection H as H; now apply N|discriminate].
  Qed.

  (** ** Unsetting *)
  Theorem unset_dual (s : view F) : unset (get_dual (set_dual s None)).
  Proof. reflexivity. Qed.
  Theorem unset_primal (s : view F) : get_primal (snd (set_primal s None)) = get_primal s.
  Proof. unfold set_primal, get_primal. destruct (v_attached s) eqn:E; cbn; now rewrite E. Qed.

  (** ** The output dimension *)
  Definition dual_dim (s : view F) : Prop := exists_ (v_dual s) = true -> v_out s = Some (cols (p_val (v_dual s))).
  Lemma dual_dim_none (s : view F) : exists_ (v_dual s) = false -> dual_dim s.
  Proof. intros H X. rewrite H in X. discriminate X. Qed.
  Lemma set_dual_dim (s : view F) v : dual_dim (set_dual s v).
  Proof.
    unfold set_dual. destruct v as [t|]; [|now apply dual_dim_none]. destruct (exists_ _ && _ && _)%bool; intros _; reflexivity.
  Qed.
  Lemma init_dual_dim (s : view F) : dual_dim s -> dual_dim (snd (init_dual orth s)).
  Proof. intros H. unfold init_dual. destruct (v_total s), (v_out s); try exact H. apply set_dual_dim. Qed.
  Lemma set_primal_dim (s : view F) v : dual_dim s -> dual_dim (snd (set_primal s v)).
  Proof.
    intros H. unfold set_primal. destruct (v_attached s); [exact H|]. destruct v as [t|]; [|now apply dual_dim_none].
    destruct (exists_ _ && _ && _)%bool.
    - destruct (copy_into _ t) as [t'|e]; [|now apply dual_dim_none]. destruct (get_primal _); now apply dual_dim_none.
    - destruct (get_primal _); now apply dual_dim_none.
  Qed.
  Lemma update_dual_dim (s : view F) v : dual_dim s -> dual_dim (snd (update_dual orth s v)).
  Proof.
    intros H. unfold update_dual.
    assert (D : dual_dim (snd (if exists_ (v_dual s) then (Ok tt, s) else init_dual orth s)) /\
      (fst (if exists_ (v_dual s) then (Ok tt, s) else init_dual orth s) = Ok tt ->
       v_out (snd (if exists_ (v_dual s) then (Ok tt, s) else init_dual orth s)) =
       Some (cols (p_val (v_dual (snd (if exists_ (v_dual s) then (Ok tt, s) else init_dual orth s))))))).
    { destruct (exists_ (v_dual s)) eqn:X; cbn [fst snd]; [split; [exact H|intros _; now apply H]|].
      split; [now apply init_dual_dim|]. unfold init_dual. destruct (v_total s), (v_out s); try discriminate.
      intros _. cbn [snd]. unfold set_dual. destruct (exists_ _ && _ && _)%bool; reflexivity. }
    destruct (if exists_ _ then _ else _) as [[u|e] s1]; cbn [fst snd] in *; destruct D as (D & D'); [|exact D].
    destruct (bind _ _) as [t|e] eqn:B; cbn [snd]; [|exact D].
    intros _. cbn. assert (C : cols t = cols (p_val (v_dual s1))).
    { destruct (select (t_rows v) (v_idx s1)) as [rs|e']; [|discriminate B]. cbn [bind] in B. exact (proj2 (copy_shape _ _ _ B)). }
    rewrite C. destruct u. now apply D'.
  Qed.
  Lemma step_dim (s : view F) o : dual_dim s -> dual_dim (vstep orth s o).
  Proof.
    intros H. destruct o as [v|v|v|q|p w|w|]; cbn [vstep].
    - apply set_dual_dim.
    - now apply update_dual_dim.
    - now apply set_primal_dim.
    - now apply dual_dim_none.
    - unfold init_parameters. destruct p.
      + destruct (_ || _)%bool; [|exact H]. unfold init_primal. destruct (v_out s); [|exact H]. destruct (v_feat s); [|exact H]. now apply set_primal_dim.
      + destruct (_ || _)%bool; [|exact H]. now apply init_dual_dim.
    - unfold attach. destruct (v_attached s); exact H.
    - unfold detach. destruct (get_primal s) as [w|e]; [|exact H]. now apply set_primal_dim.
  Qed.
  Theorem run_dim os (s : view F) : dual_dim s -> dual_dim (vrun orth s os).
  Proof. revert s. induction os as [|o os IH]; intros s H; [exact H|]. apply IH. now apply step_dim. Qed.
  Lemma construct_dim primal total idx feat out weight hidden s : construct orth primal total idx feat out weight hidden = Ok s -> dual_dim s.
  Proof.
    unfold construct. set (s0 := View 2 total idx feat out (Param 0 empty_tensor) (Param 1 empty_tensor) None).
    assert (D0 : dual_dim s0) by now apply dual_dim_none.
    destruct (match weight with Some w => set_primal s0 (Some w) | None => (Ok tt, set_dual s0 hidden) end) as [r s1] eqn:E1.
    assert (D1 : dual_dim s1).
    { destruct weight as [w|].
      - pose proof (set_primal_dim s0 (Some w) D0) as H. rewrite E1 in H. exact H.
      - injection E1 as _ <-. apply set_dual_dim. }
    destruct r as [u|e]; [|discriminate]. pose proof (step_dim s1 (VInit primal true) D1) as D2. cbn [vstep] in D2.
    destruct (init_parameters orth primal true s1) as [[u'|e] s2]; cbn [snd] in D2; intros H.
    - injection H as <-. exact D2.
    - destruct e; try discriminate H. injection H as <-. exact D2.
  Qed.
  (** After any history, the hidden variables have as many columns as announced. *)
  Theorem dual_dimension primal total idx feat out weight hidden s os t :
    construct orth primal total idx feat out weight hidden = Ok s ->
    get_dual (vrun orth s os) = Ok t -> v_out (vrun orth s os) = Some (t_cols t).
  Proof.
    intros H E. pose proof (run_dim os s (construct_dim _ _ _ _ _ _ _ _ H)) as D. unfold get_dual in E.
    destruct (exists_ (v_dual (vrun orth s os))) eqn:X; [|discriminate E]. rewrite (D X).
    destruct (select _ _) as [r|e]; [|discriminate E]. cbn [bind] in E. injection E as <-. reflexivity.
  Qed.
  Theorem primal_dimension (s : view F) w q : get_primal s = Ok w ->
    get_primal (set_dim_output s q) = Ok w /\ v_out (set_dim_output s q) = Some q.
  Proof. intros H. split; [exact H|reflexivity]. Qed.

  (** ** Identity of the parameters *)
  Definition numbered (s : view F) : Prop := p_id (v_dual s) < v_next s /\ p_id (v_primal s) < v_next s.
  Lemma set_dual_numbered (s : view F) v : numbered s -> numbered (set_dual s v).
  Proof.
    intros (A & B). unfold set_dual, numbered. destruct v as [t|]; [destruct (exists_ _ && _ && _)%bool|]; cbn; lia.
  Qed.
  Lemma init_dual_numbered (s : view F) : numbered s -> numbered (snd (init_dual orth s)).
  Proof. intros H. unfold init_dual. destruct (v_total s), (v_out s); try exact H. now apply set_dual_numbered. Qed.
  Lemma set_primal_numbered (s : view F) v : numbered s -> numbered (snd (set_primal s v)).
  Proof.
    intros (A & B). unfold set_primal, numbered. destruct (v_attached s); [now split|]. destruct v as [t|]; [|cbn; lia].
    destruct (exists_ _ && _ && _)%bool.
    - destruct (copy_into _ t) as [t'|e]; [|cbn; lia]. destruct (get_primal _); cbn; lia.
    - destruct (get_primal _); cbn; lia.
  Qed.
  Lemma update_numbered (s : view F) v : numbered s -> numbered (snd (update_dual orth s v)).
  Proof.
    intros H. unfold update_dual.
    assert (D : numbered (snd (if exists_ (v_dual s) then (Ok tt, s) else init_dual orth s))) by (destruct (exists_ _); [exact H|now apply init_dual_numbered]).
    destruct (if exists_ _ then _ else _) as [[u|e] s1]; cbn [fst snd] in *; [|exact D]. destruct (bind _ _); exact D.
  Qed.
  Lemma step_numbered (s : view F) o : numbered s -> numbered (vstep orth s o).
  Proof.
    intros H. destruct o as [v|v|v|q|p w|w|]; cbn [vstep].
    - now apply set_dual_numbered.
    - now apply update_numbered.
    - now apply set_primal_numbered.
    - destruct H. unfold numbered. cbn. lia.
    - unfold init_parameters. destruct p.
      + destruct (_ || _)%bool; [|exact H]. unfold init_primal. destruct (v_out s); [|exact H]. destruct (v_feat s); [|exact H]. now apply set_primal_numbered.
      + destruct (_ || _)%bool; [|exact H]. now apply init_dual_numbered.
    - unfold attach. destruct (v_attached s); exact H.
    - unfold detach. destruct (get_primal s) as [w|e]; [|exact H]. now apply set_primal_numbered.
  Qed.
  Theorem run_numbered os (s : view F) : numbered s -> numbered (vrun orth s os).
  Proof. revert s. induction os as [|o os IH]; intros s H; [exact H|]. apply IH. now apply step_numbered. Qed.
  Lemma construct_numbered primal total idx feat out weight hidden s : construct orth primal total idx feat out weight hidden = Ok s -> numbered s.
  Proof.
    unfold construct. set (s0 := View 2 total idx feat out (Param 0 empty_tensor) (Param 1 empty_tensor) None).
    assert (D0 : numbered s0) by (unfold numbered; cbn; lia).
    destruct (match weight with Some w => set_primal s0 (Some w) | None => (Ok tt, set_dual s0 hidden) end) as [r s1] eqn:E1.
    assert (D1 : numbered s1).
    { destruct weight as [w|].
      - pose proof (set_primal_numbered s0 (Some w) D0) as H. rewrite E1 in H. exact H.
      - injection E1 as _ <-. now apply set_dual_numbered. }
    destruct r as [u|e]; [|discriminate]. pose proof (step_numbered s1 (VInit primal true) D1) as D2. cbn [vstep] in D2.
    destruct (init_parameters orth primal true s1) as [[u'|e] s2]; cbn [snd] in D2; intros H.
    - injection H as <-. exact D2.
    - destruct e; try discriminate H. injection H as <-. exact D2.
  Qed.
  (** Assigning hidden variables of the same shape keeps the parameter. *)
  Theorem dual_identity (s : view F) t : exists_ (v_dual s) = true -> rows t = rows (p_val (v_dual s)) -> cols t = cols (p_val (v_dual s)) ->
    p_id (v_dual (set_dual s (Some t))) = p_id (v_dual s) /\ p_val (v_dual (set_dual s (Some t))) = t.
  Proof. intros X R C. unfold set_dual. rewrite X, R, C, !Nat.eqb_refl. split; reflexivity. Qed.
  (** Assigning weights of the same shape replaces it, unless the shape is square. *)
  Theorem primal_identity primal total idx feat out weight hidden s0 os t :
    construct orth primal total idx feat out weight hidden = Ok s0 ->
    let s := vrun orth s0 os in
    v_attached s = None -> exists_ (v_primal s) = true -> rows t = rows (p_val (v_primal s)) -> cols t = cols (p_val (v_primal s)) ->
    rows t <> cols t ->
    fst (set_primal s (Some t)) = Ok tt /\ get_primal (snd (set_primal s (Some t))) = Ok t /\
    p_id (v_primal (snd (set_primal s (Some t)))) <> p_id (v_primal s).
  Proof.
    intros Hc s At X R C N. destruct (run_numbered os s0 (construct_numbered _ _ _ _ _ _ _ _ Hc)) as (_ & B). fold s in B. clearbody s.
    unfold set_primal. rewrite At. cbn [reset_dual new_dual v_primal].
    assert (Q : (cols (p_val (v_primal s)) =? rows t) = false) by (apply Nat.eqb_neq; congruence).
    cbn [v_primal]. rewrite X. cbn. rewrite Q. cbn.
    assert (Y : forall i, exists_ (Param i t) = true) by (intros i; apply exists_pos in X; apply exists_pos; cbn; rewrite R, C; exact X).
    unfold get_primal. cbn. rewrite At, Y. cbn. rewrite At, Y. split; [reflexivity|]. split; [reflexivity|]. lia.
  Qed.
  Theorem primal_identity_square (s : view F) t : v_attached s = None -> exists_ (v_primal s) = true -> rows t = rows (p_val (v_primal s)) ->
    cols t = cols (p_val (v_primal s)) -> rows t = cols t -> p_id (v_primal (snd (set_primal s (Some t)))) = p_id (v_primal s).
  Proof.
    intros At X R C N. unfold set_primal. rewrite At. cbn [reset_dual new_dual v_primal]. rewrite X. cbn.
    rewrite <- R, <- C, N, !Nat.eqb_refl. cbn.
    destruct (copy_into _ t) as [t'|e]; [|reflexivity]. destruct (get_primal _); reflexivity.
  Qed.

  (** ** Arguments of the constructor *)
  Hypothesis orth_ok : forall n q, matrix n q (orth n q).
  Lemma init_dual_value (s : view F) n q : v_total s = Some n -> v_out s = Some q ->
    fst (init_dual orth s) = Ok tt /\ p_val (v_dual (snd (init_dual orth s))) = orth n q.
  Proof.
    intros T O. unfold init_dual. rewrite T, O. split; [reflexivity|]. cbn [snd]. unfold set_dual.
    destruct (exists_ _ && _ && _)%bool; reflexivity.
  Qed.
  (** Hidden variables given at construction, with a sample: they are replaced. *)
  Theorem construct_hidden n idx feat out h : exists s, construct orth false (Some n) idx feat out None (Some h) = Ok s /\
    p_val (v_dual s) = orth n (cols h).
  Proof.
    unfold construct. set (s0 := View 2 (Some n) idx feat out (Param 0 empty_tensor) (Param 1 empty_tensor) None).
    cbn [init_parameters orb]. destruct (init_dual_value (set_dual s0 (Some h)) n (cols h)) as (A & B); [reflexivity|reflexivity|].
    destruct (init_dual orth (set_dual s0 (Some h))) as [[[]|e] s2]; cbn [fst snd] in *; [|discriminate A].
    exists s2. now split.
  Qed.
  (** Without a sample they are kept. *)
  Theorem construct_hidden_kept idx feat out h : exists s, construct orth false None idx feat out None (Some h) = Ok s /\ p_val (v_dual s) = h.
  Proof. eexists. split; reflexivity. Qed.
  (** Weights given at construction, in primal: they are replaced. *)
  Theorem construct_weight total idx d out w : 0 < rows w * cols w -> 0 < d ->
    exists s, construct orth true total idx (Ok d) out (Some w) None = Ok s /\ p_val (v_primal s) = orth d (cols w).
  Proof.
    intros P Hd. unfold construct. set (s0 := View 2 total idx (Ok d) out (Param 0 empty_tensor) (Param 1 empty_tensor) None).
    assert (Hw : forall i, exists_ (Param i w) = true) by (intros i; apply exists_pos; cbn; lia).
    assert (E1 : set_primal s0 (Some w) = (Ok tt, with_out (new_primal (reset_dual s0) w) (Some (cols w)))).
    { unfold set_primal. cbn. unfold get_primal. cbn. rewrite Hw. reflexivity. }
    rewrite E1. cbn [init_parameters orb]. unfold init_primal. cbn. unfold set_primal. cbn. rewrite Hw.
    destruct (orth_ok d (cols w)) as (O1 & O2 & O3). cbn.
    assert (Ho : forall i, exists_ (Param i (orth d (cols w))) = true) by (intros i; apply exists_pos; cbn; unfold rows, cols in *; rewrite O1, O2; nia).
    destruct (Nat.eqb_spec (cols w) (rows (orth d (cols w)))) as [Q1|Q1]; cbn.
    - destruct (Nat.eqb_spec (rows w) (cols (orth d (cols w)))) as [Q2|Q2]; cbn.
      + assert (R1 : rows (orth d (cols w)) = d) by exact O1. assert (C1 : cols (orth d (cols w)) = cols w) by exact O2.
        rewrite R1 in Q1. rewrite C1 in Q2.
        rewrite (copy_same d (cols w)); [|lia|reflexivity|exact (conj O1 (conj O2 O3))].
        unfold get_primal. cbn. rewrite Ho. eexists. split; reflexivity.
      + unfold get_primal. cbn. rewrite Ho. eexists. split; reflexivity.
    - unfold get_primal. cbn. rewrite Ho. eexists. split; reflexivity.
  Qed.
  (** Weights given in the default representation: both kinds of variables are readable. *)
  Theorem construct_both n feat out w : 0 < rows w * cols w -> 0 < n ->
    exists s, construct orth false (Some n) (whole n) feat out (Some w) None = Ok s /\
      get_primal s = Ok w /\ get_dual s = Ok (orth n (cols w)).
  Proof.
    intros P Hn. unfold construct. set (s0 := View 2 (Some n) (whole n) feat out (Param 0 empty_tensor) (Param 1 empty_tensor) None).
    assert (Hw : forall i, exists_ (Param i w) = true) by (intros i; apply exists_pos; cbn; lia).
    assert (E1 : set_primal s0 (Some w) = (Ok tt, with_out (new_primal (reset_dual s0) w) (Some (cols w)))).
    { unfold set_primal. cbn. unfold get_primal. cbn. rewrite Hw. reflexivity. }
    rewrite E1. cbn [init_parameters orb]. cbn. eexists. split; [reflexivity|].
    unfold get_primal, get_dual. cbn. rewrite Hw. split; [reflexivity|].
    destruct (orth_ok n (cols w)) as (O1 & O2 & O3).
    assert (Ho : forall i, exists_ (Param i (orth n (cols w))) = true) by (intros i; apply exists_pos; cbn; unfold rows, cols in *; rewrite O1, O2; nia).
    rewrite Ho, (select_whole _ n O1). cbn. f_equal. unfold cols at 1. rewrite O2. destruct (orth n (cols w)) as [c r]. cbn in *. now subst c.
  Qed.

  (** ** Attaching *)
  Theorem attach_reads (s : view F) w : v_attached s = None -> fst (attach s w) = Ok tt /\ get_primal (snd (attach s w)) = Ok w.
  Proof. intros H. unfold attach. rewrite H. split; reflexivity. Qed.
  Theorem attach_once (s : view F) w w' : v_attached s = Some w -> attach s w' = (Err EAssertionError, s).
  Proof. intros H. unfold attach. now rewrite H. Qed.
  Theorem detach_raises (s : view F) w : v_attached s = Some w -> detach s = (Err (EOther 1), s).
  Proof. intros H. unfold detach, get_primal. rewrite H. unfold set_primal. rewrite H. reflexivity. Qed.
  Theorem attached_forever (s : view F) w os : v_attached s = Some w -> get_primal (vrun orth s os) = Ok w.
  Proof.
    intros H. assert (Q : v_attached (vrun orth s os) = Some w); [|unfold get_primal; now rewrite Q].
    revert s H. induction os as [|o os IH]; intros s H; [exact H|]. apply IH.
    destruct o as [v|v|v|q|p x|x|]; cbn [vstep].
    - rewrite (proj2 (set_dual_frame s v)). exact H.
    - rewrite (proj2 (update_dual_frame s v)). exact H.
    - unfold set_primal. now rewrite H.
    - exact H.
    - unfold init_parameters. destruct p.
      + destruct (_ || _)%bool; [|exact H]. unfold init_primal. destruct (v_out s); [|exact H]. destruct (v_feat s); [|exact H]. unfold set_primal. now rewrite H.
      + destruct (_ || _)%bool; [|exact H]. now rewrite (proj2 (init_dual_frame s)).
    - unfold attach. now rewrite H.
    - rewrite (detach_raises s w H). exact H.
  Qed.
End View.

(** ** Points selected in another order *)
Section Order.
  Context {F : Type}.
  Variable orth : nat -> nat -> @tensor F.
  Hypothesis orth_ok : forall n q, matrix n q (orth n q).
  Theorem rotated (s : view F) q a b c : v_total s = Some 3 -> v_out s = Some q -> v_idx s = [1; 2; 0]%Z -> 0 < q ->
    (exists_ (v_dual s) = true -> rows (p_val (v_dual s)) = 3 /\ cols (p_val (v_dual s)) = q) -> matrix 3 q (Tensor q [a; b; c]) ->
    fst (update_dual orth s (Tensor q [a; b; c])) = Ok tt /\
    get_dual (snd (update_dual orth s (Tensor q [a; b; c]))) = Ok (Tensor q [c; a; b]).
  Proof.
    intros T O I P H M. apply (update_select orth orth_ok s 3 q _ [b; c; a]); auto; try (rewrite I); try reflexivity. lia.
  Qed.
End Order.

(** ** An accepted initialisation *)
Section Initialised.
  Context {F : Type}.
Lemma initialised (orth : nat -> nat -> @tensor F) primal s s' : init_parameters orth primal true s = (Ok tt, s') ->
  (exists q, v_out s = Some q) /\ v_out s' = Some (t_cols (p_val (if primal then v_primal s' else v_dual s'))).
Proof.
  unfold init_parameters. cbn [orb]. destruct primal.
  - unfold init_primal. destruct (v_out s) as [q|]; [|discriminate]. destruct (v_feat s) as [n|e]; [|discriminate].
    unfold set_primal. destruct (v_attached s) eqn:A; [discriminate|]. intros H. split; [now exists q|].
    revert H.
    destruct (exists_ (v_primal (reset_dual s)) && _ && _)%bool.
    + destruct (copy_into _ _) as [t|e]; [|discriminate]. unfold get_primal. cbn. rewrite A.
      destruct (exists_ _); [|discriminate]. intros H. injection H as <-. reflexivity.
    + unfold get_primal. cbn. rewrite A. destruct (exists_ _); [|discriminate]. intros H. injection H as <-. reflexivity.
  - unfold init_dual. destruct (v_total s) as [n|]; [|discriminate]. destruct (v_out s) as [q|]; [|discriminate].
    intros H. split; [now exists q|]. injection H as <-. cbn. unfold reset_primal. destruct (_ && _)%bool; reflexivity.
Qed.
End Initialised.
