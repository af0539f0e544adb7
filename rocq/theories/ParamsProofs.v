(** Proofs about the parameters handed to the optimiser. *)
From Verif Require Import Base Params ParamsSpec.
From Coq Require Import Lia.
Open Scope nat_scope.
Open Scope list_scope.

Lemma existsb_In : forall p l, existsb (Nat.eqb p) l = true <-> In p l.
Proof.
  intros p l. rewrite existsb_exists. split.
  - intros [x [H E]]. apply Nat.eqb_eq in E. subst x. exact H.
  - intros H. exists p. split; [exact H | apply Nat.eqb_refl].
Qed.
Lemma existsb_notIn : forall p l, existsb (Nat.eqb p) l = false <-> ~ In p l.
Proof.
  intros p l. rewrite <- existsb_In. destruct (existsb (Nat.eqb p) l); split; congruence || intuition congruence.
Qed.
Lemma unseen_In : forall ps memo p, In p (unseen memo ps) <-> In p ps /\ ~ In p memo.
Proof.
  induction ps as [|q ps IH]; intros memo p; cbn [unseen]; [cbn; tauto|].
  destruct (existsb (Nat.eqb q) memo) eqn:E.
  - apply existsb_In in E. rewrite IH. cbn [In]. split; [tauto|].
    intros [[->|H] N]; [contradiction | tauto].
  - apply existsb_notIn in E. cbn [In]. rewrite IH. cbn [In].
    destruct (Nat.eq_dec q p) as [->|D]; tauto.
Qed.
Lemma unseen_NoDup : forall ps memo, NoDup (unseen memo ps).
Proof.
  induction ps as [|q ps IH]; intros memo; cbn [unseen]; [constructor|].
  destruct (existsb (Nat.eqb q) memo); [apply IH|]. constructor; [|apply IH].
  rewrite unseen_In. cbn [In]. tauto.
Qed.
Lemma first_at_In : forall p l a, first_at p l = Some a -> In p l.
Proof.
  intros p l. induction l as [|q l IH]; intros a H; [discriminate H|]. cbn [first_at] in H.
  destruct (Nat.eqb_spec p q) as [->|D]; [left; reflexivity|].
  destruct (first_at p l); [|discriminate H]. right. exact (IH n eq_refl).
Qed.
Lemma unseen_order : forall ps memo i j p q a b, i < j ->
  nth_error (unseen memo ps) i = Some p -> nth_error (unseen memo ps) j = Some q ->
  first_at p ps = Some a -> first_at q ps = Some b -> a < b.
Proof.
  induction ps as [|x ps IH]; intros memo i j p q a b L Ni Nj A B; [discriminate A|].
  cbn [unseen] in Ni, Nj. destruct (existsb (Nat.eqb x) memo) eqn:E.
  - assert (X : forall y i, nth_error (unseen memo ps) i = Some y -> Nat.eqb y x = false).
    { intros y k N. apply nth_error_In in N. apply unseen_In in N. destruct N as [_ N].
      apply Nat.eqb_neq. intros ->. apply N. apply existsb_In. exact E. }
    cbn [first_at] in A, B. rewrite (X _ _ Ni) in A. rewrite (X _ _ Nj) in B.
    destruct (first_at p ps) as [a'|] eqn:A'; [|discriminate A].
    destruct (first_at q ps) as [b'|] eqn:B'; [|discriminate B].
    injection A as <-. injection B as <-.
    pose proof (IH memo i j p q a' b' L Ni Nj A' B'). lia.
  - destruct j as [|j]; [lia|]. cbn [nth_error] in Nj.
    assert (X : forall y i, nth_error (unseen (x :: memo) ps) i = Some y -> Nat.eqb y x = false).
    { intros y k N. apply nth_error_In in N. apply unseen_In in N. destruct N as [_ N].
      apply Nat.eqb_neq. intros ->. apply N. left. reflexivity. }
    cbn [first_at] in A, B. rewrite (X _ _ Nj) in B.
    destruct (first_at q ps) as [b'|] eqn:B'; [|discriminate B]. injection B as <-.
    destruct i as [|i].
    + injection Ni as <-. rewrite Nat.eqb_refl in A. injection A as <-. lia.
    + cbn [nth_error] in Ni. rewrite (X _ _ Ni) in A.
      destruct (first_at p ps) as [a'|] eqn:A'; [|discriminate A]. injection A as <-.
      assert (L' : i < j) by lia.
      pose proof (IH (x :: memo) i j p q a' b' L' Ni Nj A' B'). lia.
Qed.
Lemma listed_once : forall ps, each_once_in_order ps (manifold_parameters ps).
Proof.
  intros ps. unfold manifold_parameters. split; [apply unseen_NoDup|]. split.
  - intros p. rewrite unseen_In. cbn [In]. tauto.
  - intros i j p q a b. apply unseen_order.
Qed.

(** *** The groups *)
Lemma disjoint_spec : forall a b, disjoint a b = true -> forall p, In p a -> ~ In p b.
Proof.
  intros a b H p Hp. unfold disjoint in H. rewrite forallb_forall in H. specialize (H p Hp).
  apply negb_true_iff in H. apply existsb_notIn. exact H.
Qed.
Lemma count_nodup : forall p l, NoDup l -> count_occ Nat.eq_dec l p = if existsb (Nat.eqb p) l then 1 else 0.
Proof.
  intros p l N. destruct (existsb (Nat.eqb p) l) eqn:E.
  - apply existsb_In in E. exact (proj1 (NoDup_count_occ' Nat.eq_dec l) N p E).
  - apply existsb_notIn in E. apply count_occ_not_In. exact E.
Qed.
Lemma groups_inv : forall grad ps gs, groups grad ps = Ok gs ->
  exists e l t, ps Euclidean = Ok e /\ ps Slow = Ok l /\ ps Stiefel = Ok t /\
    let te := trainable grad (manifold_parameters e) in
    let tl := trainable grad (manifold_parameters l) in
    let tt := trainable grad (manifold_parameters t) in
    disjoint te tl = true /\ disjoint te tt = true /\ disjoint tl tt = true /\
    flat_map snd gs = te ++ tl ++ tt.
Proof.
  intros grad ps gs H. unfold groups in H.
  destruct (ps Euclidean) as [e|?]; [|discriminate H]. cbn [bind] in H.
  destruct (ps Stiefel) as [t|?]; [|discriminate H]. cbn [bind] in H.
  destruct (ps Slow) as [l|?]; [|discriminate H]. cbn [bind] in H. cbv zeta in H.
  exists e, l, t. split; [reflexivity|]. split; [reflexivity|]. split; [reflexivity|]. cbv zeta.
  destruct (_ && _) eqn:D; [|discriminate H]. injection H as <-.
  apply andb_true_iff in D. destruct D as [D D3]. apply andb_true_iff in D. destruct D as [D1 D2].
  split; [assumption|]. split; [assumption|]. split; [assumption|].
  set (a := trainable grad (manifold_parameters e)).
  set (b := trainable grad (manifold_parameters l)).
  set (c := trainable grad (manifold_parameters t)).
  cbn [filter snd]. destruct a as [|x a], b as [|y b], c as [|z c]; cbn [flat_map snd app]; rewrite ?app_nil_r; reflexivity.
Qed.
Lemma in_trainable : forall grad ps p, In p (trainable grad (manifold_parameters ps)) <-> In p ps /\ grad p = true.
Proof.
  intros grad ps p. unfold trainable. rewrite filter_In.
  destruct (listed_once ps) as [_ [M _]]. rewrite M. reflexivity.
Qed.
Lemma groups_count : forall grad ps gs, groups grad ps = Ok gs -> forall p,
  occurrences p gs <= 1 /\ (occurrences p gs = 1 <-> (grad p = true /\ exists k l, ps k = Ok l /\ In p l)).
Proof.
  intros grad ps gs H p. destruct (groups_inv grad ps gs H) as [e [l [t [Ee [El [Et [D1 [D2 [D3 F]]]]]]]]].
  unfold occurrences. rewrite F. rewrite !count_occ_app.
  assert (N : forall x, NoDup (trainable grad (manifold_parameters x))).
  { intros x. apply NoDup_filter. apply unseen_NoDup. }
  rewrite !(count_nodup p _ (N _)).
  pose proof (disjoint_spec _ _ D1 p) as E1. pose proof (disjoint_spec _ _ D2 p) as E2. pose proof (disjoint_spec _ _ D3 p) as E3.
  rewrite in_trainable in E1, E2, E3. rewrite in_trainable in E1, E2, E3.
  assert (X : forall x, existsb (Nat.eqb p) (trainable grad (manifold_parameters x)) = true <-> In p x /\ grad p = true).
  { intros x. rewrite existsb_In. apply in_trainable. }
  assert (XE := X e). assert (XL := X l). assert (XT := X t).
  assert (K : (exists k x, ps k = Ok x /\ In p x) <-> In p e \/ In p l \/ In p t).
  { split.
    - intros [k [x [Ex I]]]. destruct k.
      + rewrite Ee in Ex. injection Ex as <-. tauto.
      + rewrite El in Ex. injection Ex as <-. tauto.
      + rewrite Et in Ex. injection Ex as <-. tauto.
    - intros [I|[I|I]]; [exists Euclidean, e | exists Slow, l | exists Stiefel, t]; tauto. }
  rewrite K. clear K X N.
  destruct (existsb (Nat.eqb p) (trainable grad (manifold_parameters e)));
  destruct (existsb (Nat.eqb p) (trainable grad (manifold_parameters l)));
  destruct (existsb (Nat.eqb p) (trainable grad (manifold_parameters t))).
  all: try (pose proof (proj1 XE eq_refl) as IE).
  all: try (pose proof (proj1 XL eq_refl) as IL).
  all: try (pose proof (proj1 XT eq_refl) as IT).
  all: try (exfalso; tauto).
  all: split; [lia|]; cbn [Nat.add]; split; [intros Z; try discriminate Z; tauto | intros [G [I|[I|I]]]; try reflexivity].
  - discriminate (proj2 XE (conj I G)).
  - discriminate (proj2 XL (conj I G)).
  - discriminate (proj2 XT (conj I G)).
Qed.

(** *** Offered parameters are yielded *)
Lemma concat_in : forall rs r a l p, concat_gen rs = Ok l -> In r rs -> r = Ok a -> In p a -> In p l.
Proof.
  induction rs as [|x rs IH]; intros r a l p H I E P; [contradiction|]. cbn [concat_gen] in H.
  destruct x as [b|e]; [|discriminate H]. cbn [bind] in H.
  destruct (concat_gen rs) as [c|e] eqn:C; [|discriminate H]. cbn [bind] in H. injection H as <-.
  rewrite in_app_iff. destruct I as [I|I].
  - rewrite E in I. injection I as ->. left. exact P.
  - right. exact (IH r a c p eq_refl I E P).
Qed.
Lemma concat_ok : forall rs l, concat_gen rs = Ok l -> forall r, In r rs -> exists a, r = Ok a.
Proof.
  induction rs as [|x rs IH]; intros l H r I; [contradiction|]. cbn [concat_gen] in H.
  destruct x as [b|e]; [|discriminate H]. cbn [bind] in H.
  destruct (concat_gen rs) as [c|e] eqn:C; [|discriminate H].
  destruct I as [<-|I]; [exists b; reflexivity | exact (IH c eq_refl r I)].
Qed.
Lemma sound_super : forall ly k rest l, sound_layer ly -> run_gen (ly_gen ly k) rest = Ok l ->
  exists r, rest = Ok r /\ forall p, In p r \/ In (k, p) (ly_offers ly) -> In p l.
Proof.
  intros ly k rest l S H.
  destruct rest as [r|e].
  2:{ destruct S; destruct k; discriminate H. }
  exists r. split; [reflexivity|].
  destruct S, k; cbn in H; injection H as <-; intros p [I|I]; cbn [ly_offers ly_sample ly_distance ly_polynomial ly_skewed ly_indicator ly_hat ly_implicit_nn ly_kpca] in *;
    try exact I; try (cbn [In] in *; rewrite ?in_app_iff; tauto).
  all: try (destruct I as [I|[I|[]]]; injection I as <-; cbn; tauto).
  all: try (destruct I as [I|[]]; injection I as <-; cbn [In]; rewrite ?in_app_iff; cbn [In]; tauto).
  all: try (destruct I as [I|[]]; discriminate I).
  all: try (destruct I as [I|[I|[]]]; discriminate I).
  all: try (apply in_map_iff in I; destruct I as [x [E I]]; first [discriminate E | injection E as <-; rewrite in_app_iff; tauto]).
  all: try (destruct o as [q|]; [|contradiction]; destruct I as [I|[]]; first [discriminate I | injection I as <-; rewrite in_app_iff; cbn [In]; tauto]).
Qed.
Lemma fold_sound : forall lys k rest l, Forall sound_layer lys ->
  fold_right (fun ly rest => run_gen (ly_gen ly k) rest) rest lys = Ok l ->
  exists r, rest = Ok r /\ forall p, In p r \/ (exists ly, In ly lys /\ In (k, p) (ly_offers ly)) -> In p l.
Proof.
  intros lys k rest l S. revert l. induction S as [|ly lys S1 S2 IH]; intros l H.
  - exists l. split; [exact H|]. intros p [I|[y [[] _]]]. exact I.
  - cbn [fold_right] in H. destruct (sound_super ly k _ l S1 H) as [r1 [H1 P1]].
    destruct (IH r1 H1) as [r [H2 P2]]. exists r. split; [exact H2|].
    intros p [I|[y [[<-|I] O]]].
    + apply P1. left. apply P2. left. exact I.
    + apply P1. right. exact O.
    + apply P1. left. apply P2. right. exists y. split; assumption.
Qed.
Lemma offered_generated : forall k p m, offered k p m -> sound_tree m -> forall l, generated k true m = Ok l -> In p l.
Proof.
  intros k p m O. induction O as [b lys cs ly I E|b lys cs c I K O IH]; intros S l H; inversion S as [b0 l0 c0 SL SC E0]; cbn [generated] in H;
    destruct (fold_sound lys k _ l SL H) as [r [Hr P]]; apply P.
  - right. exists ly. split; assumption.
  - left.
    assert (Ic : In (if is_kerch c then generated k true c else Ok []) (map (fun c => if is_kerch c then generated k true c else Ok []) cs)).
    { apply in_map_iff. exists c. split; [reflexivity | exact I]. }
    destruct (concat_ok _ _ Hr _ Ic) as [a Ea].
    apply (concat_in _ _ a r p Hr Ic Ea). rewrite K in Ea.
    exact (IH (proj1 (Forall_forall _ _) SC c I) a Ea).
Qed.
Lemma offered_optimised : forall grad (levels : list pmod) gs,
  groups grad (fun k => model_generated k true levels) = Ok gs -> Forall sound_tree levels ->
  forall k p m, In m levels -> offered k p m -> grad p = true -> occurrences p gs = 1.
Proof.
  intros grad levels gs H S k p m I O G. apply (groups_count grad _ gs H p). split; [exact G|].
  destruct (groups_inv grad _ gs H) as [e [l [t [Ee [El [Et _]]]]]].
  assert (X : exists x, model_generated k true levels = Ok x) by (destruct k; eexists; eassumption).
  destruct X as [x X]. exists k, x. split; [exact X|].
  assert (Im : In (generated k true m) (map (generated k true) levels)) by (apply in_map; exact I).
  destruct (concat_ok _ _ X _ Im) as [a Ea].
  apply (concat_in _ _ a x p X Im Ea).
  exact (offered_generated k p m O (proj1 (Forall_forall _ _) S m I) a Ea).
Qed.
(** The generators of such modules never fail. *)
Fixpoint sound_ok (k : manifold) (m : pmod) : sound_tree m -> exists l, generated k true m = Ok l.
Proof.
  destruct m as [b lys cs]. intros S. 
  assert (SL : Forall sound_layer lys) by (inversion S; assumption).
  assert (SC : Forall sound_tree cs) by (inversion S; assumption).
  cbn [generated].
  assert (C : exists r, concat_gen (map (fun c => if is_kerch c then generated k true c else Ok []) cs) = Ok r).
  { clear S SL lys b.
    induction cs as [|c cs IH]; [exists []; reflexivity|]. inversion SC as [|c1 cs1 S1 S2]. subst c1 cs1.
    destruct (IH S2) as [r Hr]. destruct (sound_ok k c S1) as [a Ha].
    cbn [map concat_gen]. rewrite Hr. destruct (is_kerch c).
    - rewrite Ha. eexists. reflexivity.
    - eexists. reflexivity. }
  destruct C as [r Hr]. rewrite Hr. clear -SL.
  induction SL as [|ly lys S1 S2 IH]; [exists r; reflexivity|]. cbn [fold_right]. destruct IH as [x Hx]. rewrite Hx.
  destruct S1, k; cbn; eexists; reflexivity.
Qed.

(** *** Classes that lose parameters *)
Lemma fold_ignored : forall (lys lys' : list layer) ly k rest, ly_gen ly k = GSuper ->
  fold_right (fun ly rest => run_gen (ly_gen ly k) rest) rest (lys ++ ly :: lys') =
  fold_right (fun ly rest => run_gen (ly_gen ly k) rest) rest (lys ++ lys').
Proof.
  intros lys lys' ly k rest G. rewrite !fold_right_app. cbn [fold_right]. rewrite G. reflexivity.
Qed.
Lemma sigmoid_ignored : forall k recurse b lys lys' cs a c,
  generated k recurse (PMod b (lys ++ ly_sigmoid a c :: lys') cs) = generated k recurse (PMod b (lys ++ lys') cs).
Proof. intros. cbn [generated]. apply fold_ignored. reflexivity. Qed.
Lemma random_features_ignored : forall k recurse b lys lys' cs w s,
  generated k recurse (PMod b (lys ++ ly_random_features w s :: lys') cs) = generated k recurse (PMod b (lys ++ lys') cs).
Proof. intros. cbn [generated]. apply fold_ignored. reflexivity. Qed.
Lemma explicit_nn_hides : forall recurse b lys cs t nets,
  generated Euclidean recurse (PMod b (ly_explicit_nn t nets :: lys) cs) = Ok (if t then nets else []).
Proof. reflexivity. Qed.
Lemma lssvm_primal : forall recurse b lys cs dual weights attr bias gamma rest,
  generated Euclidean recurse (PMod b lys cs) = Ok rest ->
  generated Euclidean recurse (PMod b (ly_lssvm true dual weights attr bias gamma :: lys) cs) =
  match attr with None => Err EAttributeError | Some w => Ok (rest ++ [w; bias]) end.
Proof.
  intros recurse b lys cs dual weights attr bias gamma rest H. cbn [generated fold_right] in *. rewrite H.
  destruct attr; reflexivity.
Qed.
Lemma lssvm_gamma : forall k recurse b lys cs primal dual weights attr bias gamma gamma',
  generated k recurse (PMod b (ly_lssvm primal dual weights attr bias gamma :: lys) cs) =
  generated k recurse (PMod b (ly_lssvm primal dual weights attr bias gamma' :: lys) cs).
Proof. reflexivity. Qed.
