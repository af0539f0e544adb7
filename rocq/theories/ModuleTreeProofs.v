(** Proofs about [ModuleTree.v]. *)
From Coq Require Import QArith Qround Permutation.
From Verif Require Import Base BaseProofs Cache CacheSpec CacheProofs Tree TreeProofs ModuleTree.
Open Scope Z_scope.

#[local] Arguments reset_cache {V} c reset_persisting avoided : simpl never.

(** ** Recursive reset *)
Section Reset.
  Context {V : Type}.
  Implicit Types t : tree (cmodule V).

  Definition emptied (m : cmodule V) : Prop := c_entries (cm_cache m) = [].

  Lemma reset_recursive_empties t :
    all_nodes (fun m => cm_is_cache m = true) t ->
    all_nodes emptied (reset true true t).
  Proof.
    induction t as [m ts IH] using tree_ind'. rewrite all_nodes_Node. intros [Hm Hts].
    cbn [reset]. rewrite all_nodes_Node. split; [reflexivity|].
    rewrite Forall_map. rewrite Forall_forall in *. intros t Ht.
    rewrite (all_nodes_root _ _ (Hts t Ht)). now apply IH, Hts.
  Qed.

  (** With [reset_persisting=False] exactly the persisting entries survive, at
      every depth. *)
  Lemma reset_recursive_nodes p t :
    all_nodes (fun m => cm_is_cache m = true) t ->
    nodes (reset true p t) =
    map (fun m => CModule (cm_is_cache m) (reset_cache (cm_cache m) p [])) (nodes t).
  Proof.
    induction t as [m ts IH] using tree_ind'. rewrite all_nodes_Node. intros [Hm Hts].
    cbn [reset nodes map]. f_equal.
    induction ts as [|t ts IHts]; [reflexivity|]. cbn [map flat_map].
    inversion IH as [|? ? Ht IHl]; subst. inversion Hts as [|? ? Hc Hcl]; subst.
    rewrite map_app. f_equal; [|now apply IHts].
    rewrite (all_nodes_root _ _ Hc). now apply Ht.
  Qed.

  Lemma reset_nonrecursive p t : subtrees (reset false p t) = subtrees t.
  Proof. destruct t as [m ts]. reflexivity. Qed.
End Reset.

(** ** Porting *)
Section Apply.
  Context {T : Type}.

  Fixpoint iter (n : nat) (f : T -> T) (x : T) : T :=
    match n with O => x | S n' => f (iter n' f x) end.

  (** [n] successive applications at the root of a hierarchy of caching modules:
      [n * 2^d] at depth [d]. *)
  Fixpoint ported (n : nat) (fn : T -> T) (t : tree (pmodule T)) : tree (pmodule T) :=
    match t with
    | Node m ts =>
        Node (PModule (pm_is_cache m) (map (iter n fn) (pm_tensors m)))
             (map (ported (if pm_is_cache m then 2 * n else n) fn) ts)
    end.

  Lemma iter_add a b f x : iter (a + b) f x = iter a f (iter b f x).
  Proof. induction a as [|a IH]; cbn; [reflexivity|]. now rewrite IH. Qed.

  Lemma ported_add a b fn t : ported a fn (ported b fn t) = ported (a + b) fn t.
  Proof.
    revert a b. induction t as [m ts IH] using tree_ind'. intros a b. cbn [ported pm_is_cache pm_tensors].
    f_equal.
    - f_equal. rewrite map_map. apply map_ext. intros x. symmetry. apply iter_add.
    - rewrite map_map. apply map_ext_in. intros t Ht. rewrite Forall_forall in IH.
      rewrite IH by exact Ht. f_equal. destruct (pm_is_cache m); lia.
  Qed.

  Lemma ported_height a fn t : height (ported a fn t) = height t.
  Proof.
    revert a. induction t as [m ts IH] using tree_ind'. intros a. cbn [ported height]. f_equal.
    generalize (if pm_is_cache m then 2 * a else a)%nat as b. intros b.
    induction IH as [|t ts Ht IHts IHl]; cbn; [reflexivity|]. now rewrite Ht, IHl.
  Qed.

  Lemma rmap_map {A B} (f : A -> result B) (g : A -> B) l :
    (forall x, In x l -> f x = Ok (g x)) -> rmap f l = Ok (map g l).
  Proof.
    induction l as [|a l IH]; cbn; intros Hf; [reflexivity|].
    rewrite Hf by now left. rewrite IH; [reflexivity|]. intros x Hx. apply Hf. now right.
  Qed.

  Lemma height_subtree (m : pmodule T) ts t n : In t ts -> (height (Node m ts) <= S n)%nat -> (height t <= n)%nat.
  Proof.
    cbn. intros Hin Hh. apply le_S_n in Hh. revert Hh. induction ts as [|t' ts IH]; [easy|].
    cbn. destruct Hin as [->|Hin]; [lia|]. intros Hh. apply IH; [exact Hin|lia].
  Qed.

  (** Porting succeeds within the recursion limit and applies the function
      [2^d] times at depth [d]. *)
  Lemma apply_fuel_ported fn : forall n t, (height t <= n)%nat ->
    apply_fuel n fn t = Ok (ported 1 fn t).
  Proof.
    induction n as [|n IH]; intros [m ts] Hh; [cbn in Hh; lia|].
    cbn [apply_fuel ported].
    assert (E1 : rmap (apply_fuel n fn) ts = Ok (map (ported 1 fn) ts)).
    { apply rmap_map. intros t Ht. apply IH. eapply height_subtree; eassumption. }
    rewrite E1. cbn [bind]. destruct (pm_is_cache m) eqn:Em.
    - rewrite (rmap_map _ (ported 1 fn)).
      + rewrite map_map. f_equal. f_equal. apply map_ext. intros t. apply ported_add.
      + intros t Ht. apply in_map_iff in Ht as (t0 & <- & Ht0). apply IH.
        rewrite ported_height. eapply height_subtree; eassumption.
    - reflexivity.
  Qed.

  (** The number of times the function hits a tensor of a module at depth [d]. *)
  Lemma ported_nodes_depth fn t : forall d n,
    all_nodes (fun m => pm_is_cache m = true) t ->
    nodes_depth d (ported (n * 2 ^ d) fn t) =
    map (fun p : nat * pmodule T => (fst p, PModule (pm_is_cache (snd p))
               (map (iter (n * 2 ^ fst p) fn) (pm_tensors (snd p))))) (nodes_depth d t).
  Proof.
    induction t as [m ts IH] using tree_ind'. intros d n. rewrite all_nodes_Node. intros [Hm Hts].
    cbn [ported nodes_depth map fst snd]. f_equal.
    replace (if pm_is_cache m then 2 * (n * 2 ^ d) else n * 2 ^ d)%nat with (n * 2 ^ S d)%nat
      by (rewrite Hm; cbn [Nat.pow]; lia).
    induction ts as [|t ts IHts]; [reflexivity|]. cbn [map flat_map].
    inversion IH as [|? ? Ht IHl]; subst. inversion Hts as [|? ? Hc Hcl]; subst.
    rewrite map_app. f_equal; [now apply Ht|now apply IHts].
  Qed.

  Lemma iter_idem f n x : (forall x, f (f x) = f x) -> (n <> 0)%nat -> iter n f x = f x.
  Proof.
    intros Hid. destruct n as [|n]; [lia|]. intros _. cbn. induction n as [|n IH]; cbn; [reflexivity|].
    now rewrite IH, Hid.
  Qed.

  (** What a user expects of porting. *)
  Fixpoint ported_once (fn : T -> T) (t : tree (pmodule T)) : tree (pmodule T) :=
    match t with
    | Node m ts => Node (PModule (pm_is_cache m) (map fn (pm_tensors m))) (map (ported_once fn) ts)
    end.

  Lemma ported_idem fn t n : (forall x, fn (fn x) = fn x) -> (n <> 0)%nat -> ported n fn t = ported_once fn t.
  Proof.
    intros Hid. revert n. induction t as [m ts IH] using tree_ind'. intros n Hn. cbn [ported ported_once]. f_equal.
    - f_equal. apply map_ext. intros x. now apply iter_idem.
    - apply map_ext_in. intros t Ht. rewrite Forall_forall in IH. apply IH; [exact Ht|].
      destruct (pm_is_cache m); lia.
  Qed.
End Apply.

(** ** Cyclic module graphs *)

Lemma riter_err f l x e : In x l -> (forall y, In y l -> exists r, f y = r /\ (r = Ok tt \/ r = Err e)) ->
  f x = Err e -> riter f l = Err e.
Proof.
  induction l as [|a l IH]; [easy|]. intros Hin Hall Hx. cbn.
  destruct (Hall a (or_introl eq_refl)) as (r & Hr & [-> | ->]); rewrite Hr; [|reflexivity].
  destruct Hin as [->|Hin]; [congruence|]. apply IH; auto. intros y Hy. apply Hall. now right.
Qed.

Lemma riter_only f l e : (forall y, f y = Ok tt \/ f y = Err e) -> riter f l = Ok tt \/ riter f l = Err e.
Proof.
  intros Hf. induction l as [|a l IH]; cbn; [now left|].
  destruct (Hf a) as [H|H]; rewrite H; [exact IH|now right].
Qed.

Lemma apply_graph_only g : forall n i, apply_graph n g i = Ok tt \/ apply_graph n g i = Err ERuntimeError.
Proof.
  induction n as [|n IH]; intros i; cbn; [now right|].
  destruct (nth_error g i) as [nd|]; [|now left].
  destruct (riter_only (apply_graph n g) (g_cached nd) ERuntimeError IH) as [H|H]; rewrite H; [|now right].
  destruct (riter_only (apply_graph n g) (g_children nd) ERuntimeError IH) as [H'|H']; rewrite H'; [|now right].
  now left.
Qed.

(** A set of nodes each of which has a child in the set never finishes. *)
Lemma apply_graph_cycle g (S : nat -> Prop) :
  (forall i, S i -> exists nd j, nth_error g i = Some nd /\ In j (g_children nd) /\ S j) ->
  forall n i, S i -> apply_graph n g i = Err ERuntimeError.
Proof.
  intros HS. induction n as [|n IH]; intros i Hi; cbn; [reflexivity|].
  destruct (HS i Hi) as (nd & j & Hnd & Hj & HSj). rewrite Hnd.
  destruct (riter_only (apply_graph n g) (g_cached nd) ERuntimeError (apply_graph_only g n)) as [H|H];
    rewrite H; [|reflexivity].
  rewrite (riter_err (apply_graph n g) (g_children nd) j ERuntimeError Hj); [reflexivity| |now apply IH].
  intros y _. exists (apply_graph n g y). split; [reflexivity|apply apply_graph_only].
Qed.

Lemma kernel_graph_diverges n fuel : apply_graph fuel (kernel_graph n) 0 = Err ERuntimeError.
Proof.
  assert (Hcyc : forall m i, (1 <= i <= S n)%nat -> apply_graph m (kernel_graph n) i = Err ERuntimeError).
  { intros m i Hi. apply (apply_graph_cycle (kernel_graph n) (fun i => 1 <= i <= S n)%nat); [|exact Hi].
    intros [|[|j]] Hj; [lia| |].
    - exists (GNode [] [S n]), (S n). repeat split; cbn; auto; lia.
    - exists (GNode [] [S j]), (S j). repeat split; cbn; auto; [|lia|lia].
      apply (map_nth_error (fun i => GNode [] [S i]) j (seq 0 n)).
      rewrite nth_error_nth' with (d := 0%nat) by (rewrite seq_length; lia).
      rewrite seq_nth by lia. reflexivity. }
  destruct fuel as [|fuel]; [reflexivity|]. cbn. rewrite Hcyc by lia. reflexivity.
Qed.

(** ** Selections *)

Lemma range_length n : List.length (range n) = Z.to_nat n.
Proof. unfold range. now rewrite map_length, seq_length. Qed.

Lemma range_NoDup n : NoDup (range n).
Proof.
  unfold range. apply FinFun.Injective_map_NoDup; [intros a b; lia|apply seq_NoDup].
Qed.

Lemma range_In n x : In x (range n) <-> 0 <= x < n.
Proof.
  unfold range. rewrite in_map_iff. split.
  - intros (k & <- & Hk). apply in_seq in Hk. lia.
  - intros Hx. exists (Z.to_nat x). split; [lia|]. apply in_seq. lia.
Qed.

Lemma Qfloor_spec q : (inject_Z (Qfloor q) <= q)%Q /\ (q < inject_Z (Qfloor q) + 1)%Q.
Proof.
  split; [apply Qfloor_le|]. pose proof (Qlt_floor q) as H. rewrite inject_Z_plus in H. exact H.
Qed.

Lemma round_bounds q n : (0 <= q)%Q -> (q <= inject_Z n)%Q -> 0 <= round_half_even q <= n.
Proof.
  intros H0 Hn. unfold round_half_even.
  assert (Hf0 : 0 <= Qfloor q) by (rewrite Zle_Qle; eapply Qle_trans; [|apply (Qfloor_resp_le 0 q H0) || apply Qle_refl];
    change 0%Q with (inject_Z 0); rewrite <- Zle_Qle; change 0 with (Qfloor 0); now apply Qfloor_resp_le).
  assert (Hfn : Qfloor q <= n) by (rewrite <- (Qfloor_Z n); now apply Qfloor_resp_le).
  destruct (Z.eq_dec (Qfloor q) n) as [E|Hne].
  - assert (Hq : (q - inject_Z (Qfloor q) <= 0)%Q).
    { rewrite E. apply (Qplus_le_l _ _ (inject_Z n)). ring_simplify. exact Hn. }
    destruct (Qcompare_spec (q - inject_Z (Qfloor q)) (1 # 2)) as [He|Hl|Hg].
    + exfalso. rewrite He in Hq. compute in Hq. congruence.
    + lia.
    + exfalso. apply (Qlt_irrefl (1 # 2)). eapply Qlt_le_trans; [exact Hg|]. eapply Qle_trans; [exact Hq|].
      compute. discriminate.
  - destruct (Qcompare _ _); [|lia|lia]. destruct (Z.even (Qfloor q)); lia.
Qed.

Section Stochastic.
  Context {V : Type}.
  Implicit Types t : tree (smodule V).

  (** A node is initialised, stochastic, selects [idx] and keeps only persisting entries. *)
  Definition selects (idx : list Z) (m : smodule V) : Prop :=
    sm_idx m = Some idx /\
    forall k e, stored (sm_cache m) k = Some e -> e_persisting e = true.

  Definition initialised (m : smodule V) : Prop :=
    sm_kind m = KStochastic /\ sm_num m <> None /\ wf (sm_cache m).

  Lemma reset_only_persisting (c : cache V) k e : wf c ->
    stored (reset_cache c false []) k = Some e -> e_persisting e = true.
  Proof.
    intros Hwf. rewrite reset_cache_stored by exact Hwf. unfold reset_fate, survives. cbn.
    destruct (stored c k) as [e0|]; [|discriminate].
    destruct (e_persisting e0) eqn:Ep; cbn; [|discriminate]. now intros H; injection H as <-.
  Qed.

  Lemma initialised_stoch m : initialised m -> is_stochastic m = true.
  Proof. intros (Hk & _ & _). unfold is_stochastic. now rewrite Hk. Qed.

  Lemma stochastic_idx idx t : all_nodes initialised t ->
    fst (stochastic (idx_request idx) t) = Ok tt /\
    all_nodes (fun m => selects idx m /\ initialised m) (snd (stochastic (idx_request idx) t)).
  Proof.
    induction t as [m ts IH] using tree_ind'. rewrite all_nodes_Node. intros [Hm Hts].
    cbn [stochastic]. destruct Hm as (Hk & Hn & Hwf). destruct (sm_num m) as [n|] eqn:En; [|congruence].
    cbn [selection idx_request r_idx r_prop fst snd]. split; [reflexivity|].
    rewrite all_nodes_Node. split; [split; [split; [reflexivity|]|]|].
    - cbn. intros k e. now apply reset_only_persisting.
    - split; [exact Hk|]. split; [cbn; congruence|cbn; now apply reset_cache_wf].
    - rewrite Forall_map. rewrite Forall_forall in *. intros t Ht.
      rewrite (initialised_stoch _ (all_nodes_root _ _ (Hts t Ht))). now apply IH, Hts.
  Qed.

  (** A successful request selects the same indices everywhere. *)
  Lemma stochastic_select n r idx t : all_nodes initialised t ->
    sm_num (root t) = Some n -> selection n r = Ok idx ->
    fst (stochastic r t) = Ok tt /\
    all_nodes (fun m => selects idx m /\ initialised m) (snd (stochastic r t)).
  Proof.
    destruct t as [m ts]. rewrite all_nodes_Node. cbn [root]. intros [(Hk & Hn & Hwf) Hts] En Hsel.
    cbn [stochastic]. rewrite En, Hsel. cbn [fst snd]. split; [reflexivity|].
    rewrite all_nodes_Node. split; [split; [split; [reflexivity|]|]|].
    - cbn. intros k e. now apply reset_only_persisting.
    - split; [exact Hk|]. split; [cbn; congruence|cbn; now apply reset_cache_wf].
    - rewrite Forall_map. rewrite Forall_forall in *. intros t Ht.
      rewrite (initialised_stoch _ (all_nodes_root _ _ (Hts t Ht))). now apply stochastic_idx, Hts.
  Qed.

  Lemma stochastic_num r t : map sm_num (nodes (snd (stochastic r t))) = map sm_num (nodes t).
  Proof.
    revert r. induction t as [m ts IH] using tree_ind'. intros r. cbn [stochastic].
    destruct (sm_num m) as [n|] eqn:En; [|reflexivity].
    destruct (selection n r) as [idx|e]; cbn [snd nodes map sm_num]; [|now rewrite En].
    rewrite En. f_equal.
    induction ts as [|t ts IHts]; [reflexivity|]. cbn [map flat_map].
    inversion IH as [|? ? Ht IHl]; subst. rewrite !map_app. f_equal; [|now apply IHts].
    destruct (is_stochastic (root t)); [apply Ht|reflexivity].
  Qed.

  Lemma train_false_init t : all_nodes initialised t -> all_nodes initialised (train false t) /\
    sm_num (root (train false t)) = sm_num (root t).
  Proof.
    induction t as [m ts IH] using tree_ind'. rewrite all_nodes_Node. intros [Hm Hts].
    cbn [train]. rewrite (initialised_stoch _ Hm). cbn [negb andb].
    assert (Hall : all_nodes initialised (Node m (map (train false) ts))).
    { rewrite all_nodes_Node. split; [exact Hm|]. rewrite Forall_map. rewrite Forall_forall in *.
      intros t Ht. now apply IH, Hts. }
    destruct (sm_num m) as [n|] eqn:En; [|destruct Hm as (_ & ? & _); congruence].
    destruct (stochastic_select n full_request (range n) _ Hall En eq_refl) as [_ H]. split.
    - eapply all_nodes_impl; [|exact H]. cbn. tauto.
    - cbn [stochastic]. rewrite En. cbn. now rewrite En.
  Qed.

  Lemma train_false_selects n t : all_nodes initialised t -> sm_num (root t) = Some n ->
    all_nodes (selects (range n)) (train false t).
  Proof.
    destruct t as [m ts]. rewrite all_nodes_Node. cbn [root]. intros [Hm Hts] En.
    cbn [train]. rewrite (initialised_stoch _ Hm). cbn [negb andb].
    assert (Hall : all_nodes initialised (Node m (map (train false) ts))).
    { rewrite all_nodes_Node. split; [exact Hm|]. rewrite Forall_map. rewrite Forall_forall in *.
      intros t Ht. now apply train_false_init, Hts. }
    destruct (stochastic_select n full_request (range n) _ Hall En eq_refl) as [_ H].
    eapply all_nodes_impl; [|exact H]. cbn. tauto.
  Qed.

  (** Rejected requests. *)
  Lemma stochastic_rejected n r e (m : smodule V) ts :
    sm_num m = Some n -> selection n r = Err e ->
    stochastic r (Node m ts) =
    (Err e, Node (SModule (sm_kind m) (sm_num m) (sm_idx m) (reset_cache (sm_cache m) false [])) ts).
  Proof. intros En Hs. cbn [stochastic]. now rewrite En, Hs. Qed.
End Stochastic.

(** Proportional selections. *)
Definition proportion (p : Q) (perm : list Z) : request := Request None (Some p) perm.

Lemma NoDup_firstn {A} n (l : list A) : NoDup l -> NoDup (firstn n l).
Proof.
  intros H. revert n. induction H as [|a l Hni Hnd IH]; intros [|n]; cbn; try constructor.
  - intros Hin. apply Hni. rewrite <- (firstn_skipn n l). apply in_or_app. now left.
  - apply IH.
Qed.

Lemma firstn_In {A} n (l : list A) x : In x (firstn n l) -> In x l.
Proof. intros H. rewrite <- (firstn_skipn n l). apply in_or_app. now left. Qed.

Lemma selection_prop n p perm :
  0 <= n -> Permutation perm (range n) -> (0 < p)%Q -> (p <= 1)%Q ->
  exists idx, selection n (proportion p perm) = Ok idx /\
    NoDup idx /\ (forall i, In i idx -> 0 <= i < n) /\
    Z.of_nat (List.length idx) = round_half_even (inject_Z n * p).
Proof.
  intros Hn Hperm Hp0 Hp1. unfold selection, proportion; cbn [r_idx r_prop r_perm].
  replace (Qle_bool p 1) with true by (symmetry; now apply Qle_bool_iff).
  replace (Qle_bool p 0) with false.
  2:{ symmetry. destruct (Qle_bool p 0) eqn:E; [|reflexivity]. apply Qle_bool_iff in E.
      exfalso. eapply Qlt_not_le; eassumption. }
  cbn [negb]. eexists. split; [reflexivity|].
  assert (Hnd : NoDup perm) by (eapply Permutation_NoDup; [apply Permutation_sym, Hperm|apply range_NoDup]).
  split; [now apply NoDup_firstn|]. split.
  - intros i Hi. apply firstn_In in Hi. apply range_In. eapply Permutation_in; eassumption.
  - assert (Hb : 0 <= round_half_even (inject_Z n * p) <= n).
    { apply round_bounds.
      - apply Qmult_le_0_compat; [|now apply Qlt_le_weak].
        change 0%Q with (inject_Z 0). now rewrite <- Zle_Qle.
      - setoid_replace (inject_Z n) with (inject_Z n * 1)%Q at 2 by ring.
        rewrite (Qmult_comm _ p), (Qmult_comm _ 1). apply Qmult_le_compat_r; [exact Hp1|].
        change 0%Q with (inject_Z 0). now rewrite <- Zle_Qle. }
    rewrite firstn_length, (Permutation_length Hperm), range_length. lia.
Qed.

Lemma selection_prop_rejected n p perm :
  ~ ((0 < p)%Q /\ (p <= 1)%Q) -> selection n (proportion p perm) = Err EAssertionError.
Proof.
  intros H. unfold selection, proportion; cbn [r_idx r_prop r_perm].
  destruct (Qle_bool p 1) eqn:E1; [|reflexivity].
  destruct (Qle_bool p 0) eqn:E0; [reflexivity|]. exfalso. apply H. split.
  - apply Qnot_le_lt. intros Hle. apply Qle_bool_iff in Hle. congruence.
  - now apply Qle_bool_iff.
Qed.

Lemma round_integer n : round_half_even (inject_Z n) = n.
Proof.
  unfold round_half_even. rewrite Qfloor_Z.
  destruct (Qcompare_spec (inject_Z n - inject_Z n) (1 # 2)) as [He|Hl|Hg].
  - exfalso. assert (E : (inject_Z n - inject_Z n == 0)%Q) by ring. rewrite E in He. compute in He. congruence.
  - reflexivity.
  - exfalso. assert (E : (inject_Z n - inject_Z n == 0)%Q) by ring. rewrite E in Hg. compute in Hg. congruence.
Qed.

Lemma round_comp p q : (p == q)%Q -> round_half_even p = round_half_even q.
Proof.
  intros E. unfold round_half_even. rewrite (Qfloor_comp p q E).
  assert (C : Qcompare (p - inject_Z (Qfloor q)) (1 # 2) = Qcompare (q - inject_Z (Qfloor q)) (1 # 2)).
  { apply Qcompare_comp; [|reflexivity]. now rewrite E. }
  now rewrite C.
Qed.

Lemma selection_prop_one n perm : 0 <= n -> Permutation perm (range n) ->
  selection n (proportion 1 perm) = Ok perm.
Proof.
  intros Hn Hperm. unfold selection, proportion; cbn [r_idx r_prop r_perm]. cbn [Qle_bool negb].
  change (Qle_bool 1 1) with true. change (Qle_bool 1 0) with false. cbn [negb].
  rewrite (round_comp (inject_Z n * 1) (inject_Z n)) by ring. rewrite round_integer.
  rewrite firstn_all2; [reflexivity|]. rewrite (Permutation_length Hperm), range_length. lia.
Qed.

(** ** Packaged statements *)

Lemma porting_counts (T : Type) (fn : T -> T) (n : nat) (t : tree (pmodule T)) :
  (height t <= n)%nat -> all_nodes (fun m => pm_is_cache m = true) t ->
  exists t', apply_fuel n fn t = Ok t' /\
    nodes_depth 0 t' =
    map (fun p : nat * pmodule T =>
           (fst p, PModule (pm_is_cache (snd p))
                     (map (iter (2 ^ fst p) fn) (pm_tensors (snd p))))) (nodes_depth 0 t).
Proof.
  intros Hh Hc. exists (ported 1 fn t). split; [exact (apply_fuel_ported fn n t Hh)|].
  etransitivity; [exact (ported_nodes_depth fn t 0 1 Hc)|].
  apply map_ext. intros [d m]. cbn [fst snd]. now rewrite Nat.mul_1_l.
Qed.

Lemma idempotent_porting (T : Type) (fn : T -> T) (n : nat) (t : tree (pmodule T)) :
  (forall x, fn (fn x) = fn x) -> (height t <= n)%nat ->
  apply_fuel n fn t = Ok (ported_once fn t).
Proof.
  intros Hid Hh. rewrite (apply_fuel_ported fn n t Hh), (ported_idem fn t 1 Hid); [reflexivity|discriminate].
Qed.

Lemma selection_reaches_descendants (V : Type) (n : Z) (r : request) (idx : list Z) (t : tree (smodule V)) :
  all_nodes initialised t -> sm_num (root t) = Some n -> selection n r = Ok idx ->
  fst (stochastic r t) = Ok tt /\ all_nodes (selects idx) (snd (stochastic r t)).
Proof.
  intros Ht Hn Hr. destruct (stochastic_select n r idx t Ht Hn Hr) as [H1 H2].
  split; [exact H1|]. exact (all_nodes_impl _ _ _ (fun m H => proj1 H) H2).
Qed.

Lemma round_pos q : (1 # 2 < q)%Q -> 0 < round_half_even q.
Proof.
  intros Hq. unfold round_half_even.
  assert (H0 : 0 <= Qfloor q).
  { change 0 with (Qfloor (1 # 2)). apply Qfloor_resp_le. now apply Qlt_le_weak. }
  destruct (Z.eq_dec (Qfloor q) 0) as [E|Hne].
  - rewrite E. assert (C : Qcompare (q - inject_Z 0) (1 # 2) = Gt).
    { apply -> Qgt_alt. setoid_replace (q - inject_Z 0)%Q with q by (unfold inject_Z; ring). exact Hq. }
    rewrite C. lia.
  - destruct (Qcompare _ _); [destruct (Z.even (Qfloor q))| |]; lia.
Qed.

Lemma nonempty_selection n p perm :
  0 <= n -> Permutation perm (range n) -> (p <= 1)%Q -> (1 # 2 < inject_Z n * p)%Q ->
  exists idx, selection n (proportion p perm) = Ok idx /\ idx <> [].
Proof.
  intros Hn Hperm Hp1 Hnp.
  assert (Hp0 : (0 < p)%Q).
  { apply Qnot_le_lt. intros Hle. apply (Qlt_irrefl 0).
    apply (Qlt_le_trans _ (1 # 2)); [reflexivity|]. apply Qlt_le_weak. eapply Qlt_le_trans; [exact Hnp|].
    setoid_replace 0%Q with (inject_Z n * 0)%Q by ring.
    rewrite (Qmult_comm _ p), (Qmult_comm _ 0). apply Qmult_le_compat_r; [exact Hle|].
    change 0%Q with (inject_Z 0). now rewrite <- Zle_Qle. }
  destruct (selection_prop n p perm Hn Hperm Hp0 Hp1) as (idx & Hs & _ & _ & Hlen).
  exists idx. split; [exact Hs|]. intros ->. pose proof (round_pos _ Hnp). cbn in Hlen. lia.
Qed.
