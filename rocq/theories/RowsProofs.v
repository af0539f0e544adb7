(** Proofs about repeated trainings of a model (C129) and the exact result of casting integers (C134). *)
From Verif Require Import Base Cast CastSpec ModelState RowsSpec.
Open Scope nat_scope.
Open Scope list_scope.

Definition kept (l l' : level) : Prop :=
  lv_primal l' = lv_primal l /\ (lv_primal l = false -> forall p, lv_dual l = Some p -> lv_dual l' = Some p).
Lemma kept_refl l : kept l l.
Proof. split; [reflexivity|auto]. Qed.
Lemma kept_trans a b c : kept a b -> kept b c -> kept a c.
Proof. intros [P1 D1] [P2 D2]. split; [congruence|]. intros H p E. apply D2; [congruence|]. now apply D1. Qed.
Lemma kept_all_refl m : Forall2 kept m m.
Proof. induction m; constructor; [apply kept_refl|assumption]. Qed.
Lemma kept_all_trans a : forall b c, Forall2 kept a b -> Forall2 kept b c -> Forall2 kept a c.
Proof.
  induction a as [|x a IH]; intros b c H1 H2; inversion H1 as [|x1 y1 l1 l1' K1 T1]; subst; inversion H2 as [|x2 y2 l2 l2' K2 T2]; subst.
  - constructor.
  - constructor; [exact (kept_trans _ _ _ K1 K2)|exact (IH _ _ T1 T2)].
Qed.

Lemma init_parameters_kept l : kept l (snd (init_parameters l false)).
Proof.
  unfold init_parameters. destruct (lv_primal l) eqn:P.
  - split; [|intros C; congruence]. cbn [orb]. destruct (negb (exists_ (lv_weights l))); [|reflexivity].
    unfold init_primal. destruct (lv_out l); [|reflexivity]. destruct (lv_feat l (lv_in l)); [|reflexivity].
    unfold assign_weights. destruct (lv_weights l) as [p|]; [|reflexivity].
    destruct (Nat.eqb (p_cols p) _ && Nat.eqb (p_rows p) _); [|reflexivity]. destruct (Nat.eqb _ _); reflexivity.
  - cbn [orb]. destruct (lv_dual l) as [p|] eqn:D; cbn [exists_ negb].
    + apply kept_refl.
    + split; [|intros _ q E; congruence]. unfold init_dual. destruct (lv_total l), (lv_out l); try reflexivity.
      unfold assign_dual. rewrite D. reflexivity.
Qed.
Lemma init_deeper_kept n : forall ls, Forall2 kept ls (snd (init_deeper n ls)).
Proof.
  induction ls as [|l ls IH]; [constructor|]. cbn [init_deeper].
  assert (S : kept l (snd (set_num_sample l n))) by (unfold set_num_sample; destruct (lv_total l); [apply kept_refl|split; auto]).
  destruct (set_num_sample l n) as [[u|e] l1]; cbn [snd] in S.
  - pose proof (init_parameters_kept l1) as K. destruct (init_parameters l1 false) as [[v|e] l2]; cbn [snd] in K.
    + destruct (init_deeper n ls) as [r ls2]. cbn [snd] in *. constructor; [exact (kept_trans _ _ _ S K)|exact IH].
    + cbn [snd]. constructor; [exact (kept_trans _ _ _ S K)|apply kept_all_refl].
  - cbn [snd]. constructor; [exact S|apply kept_all_refl].
Qed.
Lemma init_training_kept m n d : Forall2 kept m (snd (init_training m n d)).
Proof.
  unfold init_training. destruct m as [|l ls]; cbn [init_sample]; [constructor|].
  set (l0 := with_total (with_in l (Some d) true) (Some n) true). assert (K0 : kept l l0) by (split; auto).
  cbn [init_levels]. pose proof (init_parameters_kept l0) as K. destruct (init_parameters l0 false) as [[u|e] l1]; cbn [snd] in K.
  - assert (K1 : kept l l1) by exact (kept_trans _ _ _ K0 K). destruct ls as [|x ls].
    + cbn [snd]. constructor; [exact K1|constructor].
    + destruct (lv_total l1) as [k|]; [destruct (lv_sample l1)|].
      * pose proof (init_deeper_kept k (x :: ls)) as D. destruct (init_deeper k (x :: ls)) as [r ls1]. cbn [snd] in *. now constructor.
      * cbn [snd]. constructor; [exact K1|apply kept_all_refl].
      * cbn [snd]. constructor; [exact K1|apply kept_all_refl].
  - cbn [snd]. constructor; [exact (kept_trans _ _ _ K0 K)|apply kept_all_refl].
Qed.
Lemma train_all_kept : forall ts m, Forall2 kept m (train_all m ts).
Proof.
  induction ts as [|t ts IH]; intros m; [apply kept_all_refl|]. cbn [train_all].
  exact (kept_all_trans _ _ _ (init_training_kept m (fst t) (snd t)) (IH _)).
Qed.
Theorem rows_for_ever : forall ts m i l p, nth_error m i = Some l -> lv_primal l = false -> lv_dual l = Some p ->
  exists l', nth_error (train_all m ts) i = Some l' /\ lv_dual l' = Some p.
Proof.
  intros ts m i l p N P D. pose proof (train_all_kept ts m) as K. revert i N.
  induction K as [|a b m m' Kab _ IH]; intros [|i] N; try discriminate N.
  - cbn in N. injection N as ->. exists b. split; [reflexivity|]. exact (proj2 Kab P p D).
  - exact (IH i N).
Qed.

(** Casting integers. *)
Lemma casti_exactly (A : Type) (x : array A) t :
  casti (Some x) t = if t && Nat.ltb 2 (List.length (a_shape x)) then Err ENameError
                     else Ok (Some (Array (sizes_above_one (a_shape x)) (a_data x))).
Proof.
  destruct x as [sh d]. destruct t; [|reflexivity]. cbn [andb a_shape]. unfold casti, to_matrix. cbn [a_shape].
  destruct sh as [|a [|b [|c sh]]]; try reflexivity.
Qed.
Lemma count_filter : forall sh, count (sizes_above_one sh) = count sh.
Proof.
  induction sh as [|a sh IH]; [reflexivity|]. unfold sizes_above_one in *. cbn [filter]. destruct (Nat.eqb a 1) eqn:E; cbn [negb count].
  - apply Nat.eqb_eq in E. subst a. rewrite IH. lia.
  - now rewrite IH.
Qed.
Lemma position_filter : forall sh is, (forall p, position sh is = Some p -> position (sizes_above_one sh) (indices_above_one sh is) = Some p).
Proof.
  induction sh as [|a sh IH]; intros [|i is] p H; try discriminate H; [exact H|].
  cbn [position] in H. destruct (Nat.ltb i a) eqn:L; [|discriminate H].
  destruct (position sh is) as [q|] eqn:Q; [|discriminate H]. cbn in H. injection H as <-. specialize (IH is q Q).
  unfold sizes_above_one, indices_above_one in *. cbn [combine filter fst snd]. destruct (Nat.eqb a 1) eqn:E; cbn [negb map snd].
  - apply Nat.eqb_eq in E. subst a. apply Nat.ltb_lt in L. rewrite IH. f_equal. assert (i = 0) by lia. subst i. lia.
  - cbn [position]. rewrite L, IH. cbn. pose proof (count_filter sh) as C. unfold sizes_above_one in C. now rewrite C.
Qed.
Theorem casti_entries (A : Type) (x y : array A) t is v : casti (Some x) t = Ok (Some y) -> entry x is = Some v ->
  entry y (indices_above_one (a_shape x) is) = Some v.
Proof.
  intros H E. rewrite casti_exactly in H. destruct (t && _); [discriminate H|]. injection H as <-.
  unfold entry in *. cbn [a_shape a_data]. destruct (position (a_shape x) is) as [p|] eqn:P; [|discriminate E].
  now rewrite (position_filter _ _ _ P).
Qed.
