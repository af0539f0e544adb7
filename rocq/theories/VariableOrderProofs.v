(** Dual variables stay unset until they are given; the number of points a proportion
    selects. *)
From Coq Require Import QArith Qround Permutation.
From Verif Require Import Base Cache ModuleTree CacheSpec ModuleTreeProofs Sample ViewState ViewSpec ViewProofs ViewHistory VariableOrderSpec.

Section View.
  Context {F : Type}.
  Variable orth : nat -> nat -> @tensor F.

  Lemma unset_exists (s : view F) : exists_ (v_dual s) = false -> unset (get_dual s).
  Proof. intros H. unfold get_dual. now rewrite H. Qed.
  Lemma set_primal_no_dual (s : view F) v : exists_ (v_dual s) = false -> exists_ (v_dual (snd (set_primal s v))) = false.
  Proof.
    intros H. unfold set_primal. destruct (v_attached s); [exact H|]. destruct v as [t|]; [|reflexivity].
    destruct (exists_ _ && _ && _)%bool.
    - destruct (copy_into _ t) as [t'|e]; [|reflexivity]. destruct (get_primal _); reflexivity.
    - destruct (get_primal _); reflexivity.
  Qed.

  Lemma assigned_no_dual (s : view F) v : fst (set_primal s v) = Ok tt -> exists_ (v_dual (snd (set_primal s v))) = false.
  Proof.
    unfold set_primal. destruct (v_attached s); [discriminate|]. destruct v as [t|]; [|reflexivity].
    destruct (exists_ _ && _ && _)%bool.
    - destruct (copy_into _ t) as [t'|e]; [|discriminate]. destruct (get_primal _) as [w|e]; [reflexivity|discriminate].
    - destruct (get_primal _) as [w|e]; [reflexivity|discriminate].
  Qed.

  Lemma step_no_dual (s : view F) o : gives_no_dual o -> exists_ (v_dual s) = false -> exists_ (v_dual (vstep orth s o)) = false.
  Proof.
    intros Ho H. destruct o as [v|v|v|q|[|] w|w|]; try contradiction; cbn [vstep].
    - now apply set_primal_no_dual.
    - reflexivity.
    - unfold init_parameters. destruct (_ || _)%bool; [|exact H]. unfold init_primal. destruct (v_out s); [|exact H].
      destruct (v_feat s); [|exact H]. now apply set_primal_no_dual.
    - unfold attach. now destruct (v_attached s).
    - unfold detach. destruct (get_primal s); [|exact H]. now apply set_primal_no_dual.
  Qed.

  Lemma run_no_dual os : forall s : view F, Forall gives_no_dual os -> exists_ (v_dual s) = false ->
    exists_ (v_dual (vrun orth s os)) = false.
  Proof.
    induction os as [|o os IH]; intros s Hos H; [exact H|]. apply Forall_cons_iff in Hos. destruct Hos as [Ho Hos].
    unfold vrun. cbn [fold_left]. apply IH; [exact Hos|]. now apply step_no_dual.
  Qed.

  Lemma primal_then_no_dual (s : view F) v os : fst (set_primal s v) = Ok tt -> Forall gives_no_dual os ->
    unset (get_dual (vrun orth (snd (set_primal s v)) os)).
  Proof. intros H Hos. apply unset_exists, run_no_dual; [exact Hos|now apply assigned_no_dual]. Qed.
End View.

Open Scope Z_scope.
Lemma round_small q : (0 <= q)%Q -> (q <= 1 # 2)%Q -> round_half_even q = 0.
Proof.
  intros H0 H1. unfold round_half_even.
  assert (E : Qfloor q = 0).
  { assert (Hf : (inject_Z (Qfloor q) <= q)%Q) by apply Qfloor_le.
    assert (Hl : (q < inject_Z (Qfloor q + 1))%Q) by apply Qlt_floor.
    assert (A : (inject_Z (Qfloor q) < inject_Z 1)%Q).
    { apply Qle_lt_trans with q; [exact Hf|]. apply Qle_lt_trans with (1 # 2); [exact H1|reflexivity]. }
    assert (B : (inject_Z 0 < inject_Z (Qfloor q + 1))%Q) by (apply Qle_lt_trans with q; [exact H0|exact Hl]).
    rewrite <- Zlt_Qlt in A, B. lia. }
  rewrite E. destruct (Qcompare_spec (q - inject_Z 0) (1 # 2)) as [H|H|H]; [reflexivity|reflexivity|].
  exfalso. apply (Qlt_not_le _ _ H). apply Qle_trans with q; [|exact H1].
  assert (E' : (q - inject_Z 0 == q)%Q) by ring. rewrite E'. apply Qle_refl.
Qed.

Lemma selection_exactly n p perm : 0 <= n -> Permutation perm (range n) -> (0 < p)%Q -> (p <= 1)%Q ->
  exists idx, selection n (proportion p perm) = Ok idx /\ (idx = [] <-> (inject_Z n * p <= 1 # 2)%Q).
Proof.
  intros Hn Hperm H0 H1. assert (Hq : (0 <= inject_Z n * p)%Q).
  { apply Qmult_le_0_compat; [|now apply Qlt_le_weak]. change 0%Q with (inject_Z 0). now rewrite <- Zle_Qle. }
  destruct (Qlt_le_dec (1 # 2) (inject_Z n * p)) as [H|H].
  - destruct (nonempty_selection n p perm Hn Hperm H1 H) as (idx & E & Hidx). exists idx. split; [exact E|].
    split; [contradiction|]. intros H'. exfalso. exact (Qlt_not_le _ _ H H').
  - exists []. split; [|tauto]. unfold selection, proportion. cbn [r_idx r_prop r_perm].
    assert (E1 : Qle_bool p 1 = true) by now apply Qle_bool_iff. rewrite E1.
    assert (E0 : Qle_bool p 0 = false).
    { destruct (Qle_bool p 0) eqn:E; [|reflexivity]. apply Qle_bool_iff in E. exfalso. exact (Qlt_not_le _ _ H0 E). }
    rewrite E0. cbn [negb]. now rewrite (round_small _ Hq H).
Qed.
