(** Creating and solving the levels with targets: proofs. *)
From Verif Require Import Base Ctor.

(** The history never asks for a bias. *)
Definition no_bias_request (c : cop) : Prop := c <> CRequires true.
(** Arguments for which a level in dual can be created and solved. *)
Definition consistent (a : args) (n q : nat) : Prop :=
  (exists d, a_sample a = Some (n, d)) /\ a_target a = Some (n, q) /\ (a_dim_output a = None \/ a_dim_output a = Some q).
(** How many points a solve call works with. *)
Definition solved_points (o : obj) (sample : option (nat * nat)) : option nat :=
  match sample with Some (n, _) => Some n | None => o_total o end.

Lemma create_needs_no_bias k a : requires k a = true -> create k a = Err EAttributeError.
Proof. unfold create. intros ->. reflexivity. Qed.
Lemma lssvm_default a : a_requires_bias a <> Some false -> create Lssvm a = Err EAttributeError.
Proof.
  intros H. apply create_needs_no_bias. unfold requires. destruct (a_requires_bias a) as [[|]|]; try reflexivity.
  exfalso. apply H. reflexivity.
Qed.
Lemma ridge_bias a : a_requires_bias a = Some true -> create RidgeRegression a = Err EAttributeError.
Proof. intros H. apply create_needs_no_bias. unfold requires. rewrite H. reflexivity. Qed.

Lemma set_target_fields o t r o' : set_target o t = (r, o') ->
  o_kind o' = o_kind o /\ o_requires o' = o_requires o /\ o_primal o' = o_primal o /\ o_total o' = o_total o /\
  o_num_idx o' = o_num_idx o /\ o_dim_output o' = o_dim_output o /\ o_dual o' = o_dual o /\ o_weights o' = o_weights o /\ o_bias o' = o_bias o.
Proof.
  unfold set_target. destruct t as [[m q]|]; [|intros H; injection H as <- <-; repeat split; reflexivity].
  destruct (o_total o) as [n|] eqn:ET; [|intros H; injection H as <- <-; repeat split; assumption || reflexivity].
  destruct (o_dim_output o) as [n0|] eqn:ED; [|intros H; injection H as <- <-; repeat split; assumption || reflexivity].
  destruct (negb (Nat.eqb n0 q)); [intros H; injection H as <- <-; repeat split; assumption || reflexivity|].
  destruct (negb (Nat.eqb n m)); intros H; injection H as <- <-; repeat split; cbn; assumption || reflexivity.
Qed.
Lemma init_fields o : o_kind (init_parameters o) = o_kind o /\ o_requires (init_parameters o) = o_requires o.
Proof. unfold init_parameters. destruct (o_dim_output o); [|tauto]. destruct (o_primal o); [cbn; tauto|]. destruct (o_total o); cbn; tauto. Qed.

Lemma create_fields k a o : create k a = Ok o -> o_kind o = k /\ o_requires o = false.
Proof.
  unfold create. destruct (requires k a); [intros H; discriminate H|].
  set (o0 := Obj _ _ _ _ _ _ _ _ _ _).
  destruct (set_target o0 (a_target a)) as [r o1] eqn:E. destruct r as [u|e]; [|intros H; discriminate H].
  intros H. injection H as H. destruct (set_target_fields _ _ _ _ E) as [K [Q _]]. destruct (init_fields o1) as [K1 Q1].
  rewrite H in K1, Q1. rewrite K1, Q1, K, Q. split; reflexivity.
Qed.

Lemma solve_dual_fields o n : o_kind (snd (solve_dual o n)) = o_kind o /\ o_requires (snd (solve_dual o n)) = o_requires o.
Proof.
  unfold solve_dual. destruct (o_kind o) eqn:EK; [|cbn [snd]; split; [exact EK|reflexivity]].
  destruct (o_dim_output o); [|cbn [snd]; split; [exact EK|reflexivity]].
  destruct (o_target o) as [[m q]|]; [|cbn [snd]; split; [exact EK|reflexivity]].
  destruct (Nat.ltb m (o_num_idx o)); [cbn [snd]; split; [exact EK|reflexivity]|].
  destruct (negb (Nat.eqb (o_num_idx o) n)); [cbn [snd]; split; [exact EK|reflexivity]|].
  unfold update_dual. destruct (o_dual o) as [r|].
  - destruct (Nat.eqb n r || Nat.eqb n 1)%bool; [|cbn [snd]; split; [exact EK|reflexivity]].
    unfold set_bias. destruct (o_bias o); [cbn [snd]; split; [exact EK|reflexivity]|].
    destruct (o_requires o) eqn:EQ; cbn; split; try exact EK; try exact EQ; reflexivity.
  - unfold set_bias. cbn [o_bias with_vars]. destruct (o_bias o); [cbn; split; [exact EK|reflexivity]|].
    cbn [o_requires with_vars]. destruct (o_requires o) eqn:EQ; cbn; split; try exact EK; try exact EQ; reflexivity.
Qed.

Lemma solve_fields o s t p : o_kind (snd (solve o s t p)) = o_kind o /\ o_requires (snd (solve o s t p)) = o_requires o.
Proof.
  unfold solve. set (o1 := match s with Some (n, _) => with_sample o n n | None => o end).
  assert (H1 : o_kind o1 = o_kind o /\ o_requires o1 = o_requires o) by (subst o1; destruct s as [[n d]|]; cbn; tauto).
  destruct (match t with None => Ok tt | Some (m, _) => _ end) as [u|e]; [|exact H1].
  destruct (set_target o1 t) as [r o2] eqn:E. destruct (set_target_fields _ _ _ _ E) as [K [Q _]].
  assert (H2 : o_kind o2 = o_kind o /\ o_requires o2 = o_requires o) by (rewrite K, Q; exact H1).
  destruct r as [u'|e]; [|exact H2]. destruct (o_total o2) as [n|]; [|exact H2].
  destruct (match p with Some b => b | None => o_primal o2 end); [exact H2|].
  destruct (solve_dual_fields o2 n) as [A B]. rewrite A, B. exact H2.
Qed.

Lemma step_kind o c : o_kind (cstep o c) = o_kind o.
Proof.
  destruct c as [s t p|b|k]; cbn [cstep].
  - apply solve_fields.
  - reflexivity.
  - unfold select_part. destruct (o_total o); reflexivity.
Qed.
Lemma run_kind l o : o_kind (crun o l) = o_kind o.
Proof. revert o. induction l as [|c l IH]; intros o; cbn [crun fold_left]; [reflexivity|]. etransitivity; [apply IH|apply step_kind]. Qed.

Lemma run_requires l o : Forall no_bias_request l -> o_requires o = false -> o_requires (crun o l) = false.
Proof.
  intros H. revert o. induction H as [|c l Hc _ IH]; intros o Ho; cbn [crun fold_left]; [exact Ho|]. apply IH.
  destruct c as [s t p|b|k]; cbn [cstep].
  - rewrite (proj2 (solve_fields _ _ _ _)). exact Ho.
  - destruct b; [exfalso; apply Hc; reflexivity|reflexivity].
  - unfold select_part. destruct (o_total o); cbn; exact Ho.
Qed.

(** A ridge regression is never solved. *)
Lemma ridge_solve o s t p : o_kind o = RidgeRegression -> solved_points o s <> None -> is_ok (fst (solve o s t p)) = false.
Proof.
  intros Hk Hs. unfold solve. set (o1 := match s with Some (n, _) => with_sample o n n | None => o end).
  assert (H1 : o_kind o1 = RidgeRegression /\ o_total o1 <> None).
  { subst o1. destruct s as [[n d]|]; cbn; [|split; assumption]. split; [exact Hk|discriminate]. }
  destruct (match t with None => Ok tt | Some (m, _) => _ end) as [u|e]; [|reflexivity].
  destruct (set_target o1 t) as [r o2] eqn:E. destruct (set_target_fields _ _ _ _ E) as [K [_ [_ [T _]]]].
  destruct r as [u'|e]; [|reflexivity]. destruct (o_total o2) as [n|] eqn:ET.
  - destruct (match p with Some b => b | None => o_primal o2 end); [reflexivity|].
    unfold solve_dual. rewrite K, (proj1 H1). reflexivity.
  - rewrite <- T in H1. exfalso. apply (proj2 H1). reflexivity.
Qed.
Lemma ridge_never a o l s t p : create RidgeRegression a = Ok o -> solved_points (crun o l) s <> None ->
  is_ok (fst (solve (crun o l) s t p)) = false.
Proof. intros H. apply ridge_solve. rewrite run_kind. exact (proj1 (create_fields _ _ _ H)). Qed.

(** In primal neither is an LS-SVM. *)
Lemma primal_solve o s t : solved_points o s <> None -> is_ok (fst (solve o s t (Some true))) = false.
Proof.
  intros Hs. unfold solve. set (o1 := match s with Some (n, _) => with_sample o n n | None => o end).
  assert (H1 : o_total o1 <> None) by (subst o1; destruct s as [[n d]|]; cbn; [discriminate|exact Hs]).
  destruct (match t with None => Ok tt | Some (m, _) => _ end) as [u|e]; [|reflexivity].
  destruct (set_target o1 t) as [r o2] eqn:E. destruct (set_target_fields _ _ _ _ E) as [_ [_ [_ [T _]]]].
  destruct r as [u'|e]; [|reflexivity]. destruct (o_total o2) as [n|] eqn:ET; [reflexivity|].
  rewrite <- T in H1. exfalso. apply H1. reflexivity.
Qed.

(** A part of the sample is selected. *)
Lemma partial_selection o n : o_kind o = Lssvm -> o_total o = Some n -> (o_num_idx o < n)%nat -> is_ok (fst (solve o None None (Some false))) = false.
Proof.
  intros Hk Ht Hi. unfold solve. cbn [set_target]. rewrite Ht. unfold solve_dual. rewrite Hk.
  destruct (o_dim_output o); [|reflexivity]. destruct (o_target o) as [[m q]|]; [|reflexivity].
  destruct (Nat.ltb m (o_num_idx o)); [reflexivity|].
  destruct (Nat.eqb_spec (o_num_idx o) n) as [E|E]; [lia|reflexivity].
Qed.
Lemma selected_never a o l k n : create Lssvm a = Ok o -> o_total (crun o l) = Some n -> (k < n)%nat ->
  is_ok (fst (solve (crun o (l ++ [CSelect k])) None None (Some false))) = false.
Proof.
  intros H Ht Hk. unfold crun. rewrite fold_left_app. cbn [fold_left cstep]. fold (crun o l). unfold select_part. rewrite Ht.
  apply (partial_selection _ n); [|reflexivity|cbn; lia].
  change (o_kind (with_sample (crun o l) n (Nat.min k n))) with (o_kind (crun o l)).
  rewrite run_kind. exact (proj1 (create_fields _ _ _ H)).
Qed.

Lemma no_loss o p : is_ok (read_loss o p) = false.
Proof. unfold read_loss. destruct (o_total o); [|reflexivity]. destruct (Nat.eqb _ _); reflexivity. Qed.

Lemma bias_ignored k a o l : create k a = Ok o -> Forall no_bias_request l -> forward_uses_bias (crun o l) <> Ok true.
Proof.
  intros H Hl. unfold forward_uses_bias. rewrite (run_requires l o Hl (proj2 (create_fields _ _ _ H))).
  destruct (o_dual (crun o l)); discriminate.
Qed.

Lemma created_dual k a n q : requires k a = false -> a_primal a = false -> consistent a n q ->
  create k a = Ok (Obj k false false (Some n) n (Some q) (Some (n, q)) (Some n) false false).
Proof.
  intros Hq Hp [[d Hs] [Ht Hd]]. unfold create. rewrite Hq, Hp, Hs, Ht.
  assert (E : (match a_dim_output a with Some d => Some d | None => Some q end) = Some q) by (destruct Hd as [-> | ->]; reflexivity).
  rewrite E. cbn [set_target o_total o_dim_output]. rewrite !Nat.eqb_refl. reflexivity.
Qed.

Lemma lssvm_solved a n q : a_requires_bias a = Some false -> a_primal a = false -> consistent a n q ->
  exists o, create Lssvm a = Ok o /\ fst (solve o None None None) = Ok tt /\
    let o' := snd (solve o None None None) in
    o_dual o' = Some n /\ o_bias o' = true /\ o_target o' = Some (n, q) /\ o_dim_output o' = Some q.
Proof.
  intros Hq Hp Hc. eexists. split; [apply (created_dual Lssvm a n q); [unfold requires; rewrite Hq; reflexivity|exact Hp|exact Hc]|].
  unfold solve. cbn [set_target o_total o_primal]. unfold solve_dual. cbn [o_kind o_dim_output o_target o_num_idx].
  rewrite Nat.ltb_irrefl, Nat.eqb_refl. cbn [negb]. unfold update_dual. cbn [o_dual]. rewrite Nat.eqb_refl. cbn. repeat split; reflexivity.
Qed.

Lemma lssvm_solved_all a n q k : a_requires_bias a = Some false -> a_primal a = false -> consistent a n q -> (n <= k)%nat ->
  exists o, create Lssvm a = Ok o /\ fst (solve (crun o [CSelect k]) None None None) = Ok tt /\
    o_dual (snd (solve (crun o [CSelect k]) None None None)) = Some n.
Proof.
  intros Hq Hp Hc Hk. destruct (lssvm_solved a n q Hq Hp Hc) as (o & Ho & Hs & Hd & _). exists o. split; [exact Ho|].
  assert (E : crun o [CSelect k] = o).
  { rewrite (created_dual Lssvm a n q) in Ho; [|unfold requires; rewrite Hq; reflexivity|exact Hp|exact Hc].
    injection Ho as <-. unfold crun. cbn [fold_left cstep]. unfold select_part. cbn [o_total].
    rewrite Nat.min_r by exact Hk. reflexivity. }
  rewrite E. split; [exact Hs | exact Hd].
Qed.
Lemma asked_bias o r : o_dual o = Some r -> o_bias o = true -> forward_uses_bias (snd (set_requires o true)) = Ok true.
Proof. intros H1 H2. unfold forward_uses_bias, set_requires. cbn. rewrite H1, H2. reflexivity. Qed.

(** Another sample. *)
Lemma other_size o r n d t : o_kind o = Lssvm -> o_dual o = Some r -> n <> r -> n <> 1%nat ->
  is_ok (fst (solve o (Some (n, d)) t (Some false))) = false.
Proof.
  intros Hk Hd Hr H1. unfold solve.
  destruct (match t with None => Ok tt | Some (m, _) => _ end) as [u|e]; [|reflexivity].
  destruct (set_target (with_sample o n n) t) as [x o2] eqn:E.
  destruct (set_target_fields _ _ _ _ E) as [K [_ [_ [T [I [_ [D _]]]]]]]. cbn in K, T, I, D.
  destruct x as [u'|e]; [|reflexivity]. rewrite T. unfold solve_dual. rewrite K, Hk, I.
  destruct (o_dim_output o2); [|reflexivity]. destruct (o_target o2) as [[m q]|]; [|reflexivity].
  destruct (Nat.ltb m n); [reflexivity|]. rewrite Nat.eqb_refl. cbn [negb]. unfold update_dual. rewrite D, Hd.
  destruct (Nat.eqb_spec n r) as [E1|E1]; [contradiction|]. destruct (Nat.eqb_spec n 1) as [E2|E2]; [contradiction|]. reflexivity.
Qed.
Lemma other_size_reachable a o l r n d t : create Lssvm a = Ok o -> o_dual (crun o l) = Some r -> n <> r -> n <> 1%nat ->
  is_ok (fst (solve (crun o l) (Some (n, d)) t (Some false))) = false.
Proof. intros H. apply other_size. rewrite run_kind. exact (proj1 (create_fields _ _ _ H)). Qed.

(** A sample of the same size. *)
Lemma same_size o n d q : o_kind o = Lssvm -> o_dual o = Some n -> o_dim_output o = Some q -> o_requires o = false ->
  fst (solve o (Some (n, d)) (Some (n, q)) (Some false)) = Ok tt /\
  o_target (snd (solve o (Some (n, d)) (Some (n, q)) (Some false))) = Some (n, q).
Proof.
  intros Hk Hd Hq Hr. unfold solve. rewrite Nat.eqb_refl. cbn [set_target with_sample o_total o_dim_output].
  rewrite Hq, !Nat.eqb_refl. cbn [negb with_target o_total]. unfold solve_dual. cbn [with_sample with_target o_kind o_dim_output o_target o_num_idx o_total].
  rewrite Hk, Hq, Nat.ltb_irrefl, Nat.eqb_refl. cbn [negb]. unfold update_dual. cbn [with_sample with_target o_dual]. rewrite Hd, Nat.eqb_refl. cbn [orb].
  unfold set_bias. cbn [with_sample with_target o_bias o_requires]. rewrite Hr. destruct (o_bias o); split; reflexivity.
Qed.
(** One new point and no new target: the first of the old targets is used. *)
Lemma stale_target o r m q d : o_kind o = Lssvm -> o_dual o = Some r -> o_dim_output o = Some q -> o_requires o = false -> o_target o = Some (S m, q) ->
  fst (solve o (Some (1%nat, d)) None (Some false)) = Ok tt /\ o_target (snd (solve o (Some (1%nat, d)) None (Some false))) = Some (S m, q) /\
  o_total (snd (solve o (Some (1%nat, d)) None (Some false))) = Some 1%nat.
Proof.
  intros Hk Hd Hq Hr Ht. unfold solve. cbn [set_target with_sample o_total]. unfold solve_dual. cbn [with_sample with_target o_kind o_dim_output o_target o_num_idx o_total].
  rewrite Hk, Hq, Ht. replace (Nat.ltb (S m) 1) with false by (symmetry; apply Nat.ltb_ge; lia). cbn [negb Nat.eqb]. unfold update_dual. cbn [with_sample with_target o_dual].
  rewrite Hd, Bool.orb_true_r. unfold set_bias. cbn [with_sample with_target o_bias o_requires]. rewrite Hr. destruct (o_bias o); cbn; repeat split; exact Ht || reflexivity.
Qed.

(** * Exact errors *)

Lemma ridge_error o n d : o_kind o = RidgeRegression -> fst (solve o (Some (n, d)) None (Some false)) = Err ETypeError.
Proof. intros K. unfold solve. cbn. unfold solve_dual. cbn. rewrite K. now rewrite Nat.eqb_refl. Qed.
Lemma ridge_part_error o n : o_kind o = RidgeRegression -> o_total o = Some n -> o_num_idx o <> n ->
  solve o None None (Some false) = (Err ERuntimeError, o).
Proof.
  intros K T N. unfold solve. cbn. rewrite T. unfold solve_dual. rewrite K. apply Nat.eqb_neq in N. now rewrite N.
Qed.
Lemma no_points o p : o_total o = None -> solve o None None p = (Ok tt, o).
Proof. intros T. unfold solve. cbn. now rewrite T. Qed.
Lemma loss_errors o primal : read_loss o primal =
  Err (match o_total o with None => ETypeError | Some _ => if Nat.eqb (o_num_idx o) 0 then EDivisionByZero else EAttributeError end).
Proof. unfold read_loss. destruct (o_total o); [|reflexivity]. now destruct (Nat.eqb (o_num_idx o) 0). Qed.
Lemma forced_bias o r : o_dual o = Some r -> o_bias o = false -> forward_uses_bias (snd (set_requires o true)) = Err ERuntimeError.
Proof. intros D B. unfold forward_uses_bias, set_requires. cbn. rewrite D. cbn. now rewrite B. Qed.
