(** Proofs about the tree of transforms. *)
From Coq Require Import DecimalString DecimalNat.
From Verif Require Import Base BaseProofs Cache CacheSpec CacheProofs Beautify BeautifyProofs
  TransformTree TransformSpec.
Open Scope string_scope.
Open Scope Z_scope.

(** ** Keys determine the element *)

Fixpoint us_free (s : string) : bool :=
  match s with
  | EmptyString => true
  | String c s' => negb (Ascii.eqb c "_"%char) && us_free s'
  end.

Lemma us_free_uint d : us_free (NilEmpty.string_of_uint d) = true.
Proof. induction d; cbn [NilEmpty.string_of_uint us_free]; [reflexivity|assumption..]. Qed.

Lemma us_free_str n : us_free (str_id n) = true.
Proof.
  unfold str_id, NilZero.string_of_uint. destruct (Nat.to_uint n) eqn:E; [reflexivity|..];
    rewrite <- E; apply us_free_uint.
Qed.

Lemma to_uint_not_nil n : Nat.to_uint n <> Decimal.Nil.
Proof.
  intros E. pose proof (DecimalNat.Unsigned.of_to n) as O. rewrite E in O. cbn in O. subst n.
  discriminate E.
Qed.

Lemma str_id_inj a b : str_id a = str_id b -> a = b.
Proof.
  intros H. unfold str_id in H.
  apply (f_equal NilZero.uint_of_string) in H.
  rewrite !NilZero.usu in H by apply to_uint_not_nil.
  injection H as H. apply DecimalNat.Unsigned.to_uint_inj. exact H.
Qed.

Lemma append_cancel_l a b c : a ++ b = a ++ c -> b = c.
Proof. induction a as [|x a IH]; cbn; [auto|]. intros H. injection H as H. auto. Qed.

Lemma us_split a : forall a' b b', us_free a = true -> us_free a' = true ->
  a ++ String "_" b = a' ++ String "_" b' -> a = a' /\ b = b'.
Proof.
  induction a as [|c a IH]; intros [|c' a'] b b' Ha Ha' H; cbn in *.
  - injection H as H. auto.
  - injection H as H1 H2. subst c'. discriminate.
  - injection H as H1 H2. subst c. discriminate.
  - injection H as -> H. apply andb_true_iff in Ha as [_ Ha]. apply andb_true_iff in Ha' as [_ Ha'].
    destruct (IH a' b b' Ha Ha' H) as [-> ->]. auto.
Qed.

Lemma us_free_app a b : us_free (a ++ b) = us_free a && us_free b.
Proof. induction a as [|c a IH]; cbn; [reflexivity|]. now rewrite IH, andb_assoc. Qed.

Lemma key_suffix_inj k k' : key_suffix k = key_suffix k' -> k = k'.
Proof.
  assert (O : forall x y z, str_id x = str_id y ++ "_" ++ str_id z -> False).
  { intros x y z H. pose proof (us_free_str x) as E. rewrite H, us_free_app in E.
    cbn in E. now rewrite andb_false_r in E. }
  destruct k, k'; cbn; intros H; try discriminate; try reflexivity;
    repeat (injection H as H).
  - apply str_id_inj in H. now subst.
  - now apply O in H.
  - symmetry in H. now apply O in H.
  - apply us_split in H as [H1 H2]; [|apply us_free_str..].
    apply str_id_inj in H1, H2. now subst.
  - apply str_id_inj in H. now subst.
Qed.

Lemma key_string_inj p k k' : key_string p k = key_string p k' -> k = k'.
Proof. intros H. apply append_cancel_l in H. now apply key_suffix_inj. Qed.

(** ** Node tables *)

Lemma path_eqb_spec p q : reflect (p = q) (path_eqb p q).
Proof.
  revert q. induction p as [|a p IH]; intros [|b q]; cbn; try (constructor; congruence).
  destruct (cls_eqb a b) eqn:E; cbn.
  - apply cls_eqb_eq in E as ->. destruct (IH q) as [->|H]; constructor; congruence.
  - constructor. apply cls_eqb_neq in E. congruence.
Qed.

Section Table.
  Context {V : Type}.
  Implicit Types t : nodes V.

  Lemma nget_nset_same t p n : nget (nset t p n) p = Some n.
  Proof.
    induction t as [|[q m] t IH]; cbn.
    - destruct (path_eqb_spec p p); congruence.
    - destruct (path_eqb_spec q p) as [->|Hne]; cbn.
      + destruct (path_eqb_spec p p); congruence.
      + destruct (path_eqb_spec q p); [contradiction|exact IH].
  Qed.

  Lemma nget_nset_other t p q n : q <> p -> nget (nset t p n) q = nget t q.
  Proof.
    intros Hne. induction t as [|[r m] t IH]; cbn.
    - destruct (path_eqb_spec p q); congruence.
    - destruct (path_eqb_spec r p) as [->|Hr]; cbn.
      + destruct (path_eqb_spec p q); congruence.
      + destruct (path_eqb_spec r q); [reflexivity|exact IH].
  Qed.

  Lemma nget_map (f : tnode V -> tnode V) t p :
    nget (map (fun pn => (fst pn, f (snd pn))) t) p = option_map f (nget t p).
  Proof.
    induction t as [|[q n] t IH]; cbn; [reflexivity|].
    destruct (path_eqb q p); [reflexivity|exact IH].
  Qed.

  Lemma nset_paths t p n x : In x (map fst (nset t p n)) <-> In x (map fst t) \/ x = p.
  Proof.
    induction t as [|[q m] t IH]; cbn.
    - intuition.
    - destruct (path_eqb_spec q p) as [->|Hne]; cbn; [intuition|]. rewrite IH. tauto.
  Qed.

  Lemma NoDup_nset t p n : NoDup (map fst t) -> NoDup (map fst (nset t p n)).
  Proof.
    induction t as [|[q m] t IH]; cbn; intros H.
    - constructor; [easy|constructor].
    - inversion H as [|? ? Hni Hnd]; subst.
      destruct (path_eqb_spec q p) as [->|Hne]; cbn; [exact H|].
      constructor; [|now apply IH]. rewrite nset_paths. intros [Hin|Heq]; [contradiction|congruence].
  Qed.

  Lemma In_nget t p n : NoDup (map fst t) -> In (p, n) t -> nget t p = Some n.
  Proof.
    induction t as [|[q m] t IH]; cbn; [easy|]. intros H. inversion H as [|? ? Hni Hnd]; subst.
    intros [E|Hin].
    - injection E as -> ->. destruct (path_eqb_spec p p); congruence.
    - destruct (path_eqb_spec q p) as [->|Hne]; [|now apply IH].
      exfalso. apply Hni. now apply (in_map fst) in Hin.
  Qed.

  Lemma nget_In t p n : nget t p = Some n -> In (p, n) t.
  Proof.
    induction t as [|[q m] t IH]; cbn; [discriminate|].
    destruct (path_eqb_spec q p) as [->|_]; intros H; [injection H as ->; now left|right; auto].
  Qed.
End Table.

(** ** The invariant *)

Section Proofs.
  Context {V D : Type}.
  Variable num : numerics V D.
  Variable explicit : bool.
  Notation st := (tstate V D).
  Notation M := (@M V D).
  Notation cached := (@cached V D).
  Notation stat := (stat num explicit).
  Notation sample := (sample num explicit).
  Notation compute_sample := (compute_sample num explicit).
  Notation compute_eoos := (compute_eoos num explicit).
  Notation compute_ioos := (compute_ioos num explicit).
  Notation ioos_with := (ioos_with num explicit).

  Definition pure_stat (c : cls) (p : path) : result V :=
    if explicit then chain_stat num c p else kchain_stat num c p.

  (** What each element of a node should be. *)
  Definition meant (h : nat -> D) (p : path) (k : tkey) : result V :=
    match k with
    | KSample => sample_of num explicit p
    | KStat => match p with [] => Err (EOther 1) | c :: p' => pure_stat c p' end
    | KOos x => if explicit then chain_oos num p (h x) else kchain num p (h x) None
    | KOos2 x y => if explicit then Err (EOther 1) else kchain num p (h x) (Some (h y))
    | KOosStat x =>
        match p with
        | [] => Err (EOther 1)
        | c :: p' =>
            if explicit then
              bind (chain_oos num p' (h x)) (fun o =>
                match c with
                | Sphere => Ok (estat num Sphere (parent_is_min p') o)
                | _ => chain_stat num c p'
                end)
            else kpoint_stat num c p' (kchain num p') (h x)
        end
    end.

  Definition filed (default : bool) (k : tkey) : lvl :=
    entry_level (LInt 2) (tkey_level_key default k) "normal".

  Definition entry_ok (h : nat -> D) (p : path) (default : bool) (key : string) (e : entry V) : Prop :=
    exists k, key = key_string p k /\ meant h p k = Ok (e_val e) /\ e_level e = filed default k.

  Definition node_ok (h : nat -> D) (z : Z) (p : path) (n : tnode V) : Prop :=
    wf (n_cache n) /\ c_level (n_cache n) = LInt z /\
    forall key e, stored (n_cache n) key = Some e -> entry_ok h p (n_default n) key e.

  Definition live (s : st) (p : path) : Prop := nget (t_nodes s) p <> None.

  Definition TInv (z : Z) (s : st) : Prop :=
    0 <= z <= 4 /\ live s [] /\ (forall c p, live s (c :: p) -> live s p) /\
    NoDup (map fst (t_nodes s)) /\
    (forall p n, nget (t_nodes s) p = Some n -> node_ok (t_heap s) z p n).

  Definition tframe (s s' : st) : Prop :=
    t_heap s' = t_heap s /\ t_default s' = t_default s /\
    forall p, option_map n_default (nget (t_nodes s') p) = option_map n_default (nget (t_nodes s) p).

  Lemma tframe_refl s : tframe s s.
  Proof. repeat split. Qed.
  Lemma tframe_trans s s' s'' : tframe s s' -> tframe s' s'' -> tframe s s''.
  Proof.
    intros (H1 & H2 & H3) (K1 & K2 & K3). split; [congruence|]. split; [congruence|].
    intros p. now rewrite K3, H3.
  Qed.
  Lemma tframe_live s s' p : tframe s s' -> live s p -> live s' p.
  Proof.
    intros (_ & _ & H) Hl E. apply Hl. specialize (H p). rewrite E in H. cbn in H.
    destruct (nget (t_nodes s) p); [discriminate|reflexivity].
  Qed.
  Lemma tframe_live_inv s s' p : tframe s s' -> live s' p -> live s p.
  Proof.
    intros (_ & _ & H) Hl E. apply Hl. specialize (H p). rewrite E in H. cbn in H.
    destruct (nget (t_nodes s') p); [discriminate|reflexivity].
  Qed.

  (** A computation is right at node [p]. *)
  Definition right_at {A} (p : path) (m : M A) (r : (nat -> D) -> result A) : Prop :=
    forall z s, TInv z s -> live s p ->
      exists s', m s = (r (t_heap s), s') /\ TInv z s' /\ tframe s s'.

  Lemma right_ret {A} p (r : result A) : right_at p (mret r) (fun _ => r).
  Proof. intros z s Hs _. exists s. split; [reflexivity|]. split; [exact Hs|apply tframe_refl]. Qed.

  Lemma right_bind {A B} p (m : M A) (f : A -> M B) r g :
    right_at p m r -> (forall a, right_at p (f a) (fun h => g h a)) ->
    right_at p (mbind m f) (fun h => bind (r h) (g h)).
  Proof.
    intros Hm Hf z s Hs Hp. destruct (Hm z s Hs Hp) as (s1 & E1 & I1 & F1).
    unfold mbind. rewrite E1. destruct (r (t_heap s)) as [a|e]; cbn [bind].
    - destruct (Hf a z s1 I1 (tframe_live _ _ _ F1 Hp)) as (s2 & E2 & I2 & F2).
      exists s2. destruct F1 as (Fh & Fr). rewrite E2, Fh. split; [reflexivity|]. split; [exact I2|].
      eapply tframe_trans; [split; [exact Fh|exact Fr]|exact F2].
    - exists s1. split; [reflexivity|]. split; [exact I1|exact F1].
  Qed.

  Lemma right_bind_known {A B} p (m : M A) (f : A -> M B) (r : result A) g :
    right_at p m (fun _ => r) -> (forall a, r = Ok a -> right_at p (f a) (fun h => g h a)) ->
    right_at p (mbind m f) (fun h => bind r (g h)).
  Proof.
    intros Hm Hf z s Hs Hp. destruct (Hm z s Hs Hp) as (s1 & E1 & I1 & F1).
    unfold mbind. rewrite E1. destruct r as [a|e]; cbn [bind].
    - destruct (Hf a eq_refl z s1 I1 (tframe_live _ _ _ F1 Hp)) as (s2 & E2 & I2 & F2).
      exists s2. destruct F1 as (Fh & Fr). rewrite E2, Fh. split; [reflexivity|]. split; [exact I2|].
      eapply tframe_trans; [split; [exact Fh|exact Fr]|exact F2].
    - exists s1. split; [reflexivity|]. split; [exact I1|exact F1].
  Qed.

  Lemma right_ext {A} p (m : M A) r r' :
    right_at p m r -> (forall h, r h = r' h) -> right_at p m r'.
  Proof.
    intros H E z s Hs Hp. destruct (H z s Hs Hp) as (s' & E1 & I1 & F1). exists s'.
    rewrite <- E. auto.
  Qed.

  Lemma right_child {A} c p (m : M A) r : right_at p m r -> right_at (c :: p) m r.
  Proof.
    intros H z s Hs Hp. apply H; [exact Hs|]. destruct Hs as (_ & _ & Hc & _). eapply Hc, Hp.
  Qed.

  Lemma filed_any cur default k : entry_level cur (tkey_level_key default k) "normal" = filed default k.
  Proof. destruct default, k; reflexivity. Qed.

  Lemma filed_numeric default k : numeric (filed default k).
  Proof. apply entry_level_numeric. cbn. auto 10. Qed.

  Lemma right_cached p k m r :
    right_at p m r -> (forall h, r h = meant h p k) -> right_at p (cached p k m) (fun h => meant h p k).
  Proof.
    intros Hm Er z s Hs Hp. unfold TransformTree.cached.
    destruct (nget (t_nodes s) p) as [n|] eqn:En; [|contradiction].
    assert (Hn : node_ok (t_heap s) z p n) by (destruct Hs as (_ & _ & _ & _ & Hs); now apply Hs).
    destruct (dget (c_entries (n_cache n)) (key_string p k)) as [e|] eqn:Ee.
    - exists s. split; [|split; [exact Hs|apply tframe_refl]].
      destruct Hn as (_ & _ & Hn). destruct (Hn _ _ Ee) as (k' & Ek & Hk' & _).
      apply key_string_inj in Ek. subst k'. now rewrite Hk'.
    - destruct (Hm z s Hs Hp) as (s1 & E1 & I1 & F1). rewrite E1. rewrite Er.
      destruct (meant (t_heap s) p k) as [v|err] eqn:Em.
      2: { exists s1. split; [reflexivity|]. split; [exact I1|exact F1]. }
      pose proof (tframe_live _ _ _ F1 Hp) as Hp1.
      destruct (nget (t_nodes s1) p) as [n1|] eqn:En1; [|contradiction].
      assert (Hn1 : node_ok (t_heap s1) z p n1) by (destruct I1 as (_ & _ & _ & _ & I1); now apply I1).
      destruct Hn1 as (Hwf & Hlv & Hst).
      pose proof (save_wf (n_cache n1) (key_string p k) (Ok v) (tkey_args (n_default n1) k) Hwf) as S1.
      pose proof (save_level (n_cache n1) (key_string p k) (Ok v) (tkey_args (n_default n1) k)) as S2.
      pose proof (fun x e => save_stored (n_cache n1) (key_string p k) (Ok v)
                               (tkey_args (n_default n1) k) x e Hwf) as S3.
      assert (S4 : fst (save (n_cache n1) (key_string p k) (Ok v) (tkey_args (n_default n1) k)) = Ok v).
      { unfold save. cbn [a_level_key a_default_level tkey_args]. rewrite filed_any, Hlv.
        rewrite lvl_le_numeric; [|apply filed_numeric|now exists z].
        now destruct (_ || _). }
      destruct (save (n_cache n1) (key_string p k) (Ok v) (tkey_args (n_default n1) k)) as [r1 c1].
      cbn [fst snd] in S1, S2, S3, S4. subst r1.
      set (s2 := with_nodes s1 _). exists s2. split; [reflexivity|].
      destruct F1 as (Fh & Fd & Fn).
      assert (F2 : tframe s1 s2).
      { split; [reflexivity|]. split; [reflexivity|]. intros q. cbn.
        destruct (path_eqb_spec q p) as [->|Hne].
        - rewrite nget_nset_same, En1. reflexivity.
        - now rewrite nget_nset_other by exact Hne. }
      split; [|eapply tframe_trans; [split; [exact Fh|split; [exact Fd|exact Fn]]|exact F2]].
      destruct I1 as (Hz & Hr & Hc & Hd & Ho).
      split; [exact Hz|]. split; [eapply tframe_live; eassumption|].
      split.
      { intros c q Hq. eapply tframe_live; [exact F2|]. apply (Hc c).
        eapply tframe_live_inv; [exact F2|exact Hq]. }
      split; [apply NoDup_nset, Hd|].
      intros q m' Hq. cbn in Hq. destruct (path_eqb_spec q p) as [->|Hne].
      + rewrite nget_nset_same in Hq. injection Hq as <-.
        split; [exact S1|]. split; [cbn; now rewrite S2|].
        intros key e Hkey. cbn in Hkey. cbn [n_default].
        destruct (S3 _ _ Hkey) as [Hold|(-> & v' & Ev & -> & _)]; [now apply Hst|].
        injection Ev as <-. exists k. split; [reflexivity|]. cbn [e_val e_level]. split.
        * cbn [t_heap with_nodes s2]. rewrite Fh. exact Em.
        * apply filed_any.
      + rewrite nget_nset_other in Hq by exact Hne. now apply Ho.
  Qed.

  (** ** Samples and statistics *)

  Lemma right_sample_aux p :
    right_at p (compute_sample p) (fun _ => sample_of num explicit p) ->
    right_at p (sample p) (fun _ => sample_of num explicit p).
  Proof. intros H. now apply (right_cached p KSample _ _ H). Qed.

  Lemma right_stat_of c p given (ps : M V) :
    right_at p ps (fun _ => sample_of num explicit p) ->
    match given with Some v => sample_of num explicit p = Ok v | None => True end ->
    right_at (c :: p) (stat_of num explicit c p ps given) (fun _ => pure_stat c p).
  Proof.
    intros Hps Hg. apply (right_cached (c :: p) KStat _ (fun _ => pure_stat c p)); [|reflexivity].
    eapply right_ext.
    - apply (right_bind (c :: p) _ _ (fun _ => sample_of num explicit p)
               (fun _ v => if explicit then Ok (estat num c (parent_is_min p) v)
                           else match c with MeanCenter | Sphere => istat num c v
                                | _ => Err EBijection end)).
      + destruct given as [v|].
        * eapply right_ext; [apply right_ret|]. intros h. now rewrite Hg.
        * now apply right_child.
      + intros v. apply right_ret.
    - intros h. unfold pure_stat, sample_of. destruct explicit; reflexivity.
  Qed.

  Lemma right_compute_sample p : right_at p (compute_sample p) (fun _ => sample_of num explicit p).
  Proof.
    induction p as [|c p IH].
    - eapply right_ext; [apply right_ret|]. intros h. unfold sample_of. now destruct explicit.
    - apply right_sample_aux in IH. fold (sample p) in *.
      cbn [TransformTree.compute_sample]. fold (sample p).
      pose proof (right_child c _ _ _ IH) as IHc.
      assert (Hgen : forall app : V -> V -> V,
        right_at (c :: p)
          (mbind (sample p) (fun v => mbind (stat_of num explicit c p (sample p) (Some v))
             (fun t => mret (Ok (app v t)))))
          (fun _ => bind (sample_of num explicit p) (fun v =>
                    bind (pure_stat c p) (fun t => Ok (app v t))))).
      { intros app. eapply right_bind_known; [exact IHc|]. intros v Hv.
        apply (right_bind (c :: p) _ _ (fun _ => pure_stat c p) (fun _ t => Ok (app v t))).
        - apply right_stat_of; [exact IH|exact Hv].
        - intros t. apply right_ret. }
      destruct explicit eqn:Ex.
      + eapply right_ext; [apply Hgen|]. intros h. unfold sample_of, pure_stat, chain_stat. rewrite ?Ex.
        cbn [chain_sample]. destruct (chain_sample num p); reflexivity.
      + destruct c; try apply right_ret; (eapply right_ext; [apply Hgen|]); intros h;
          unfold sample_of, pure_stat, kchain_stat; rewrite ?Ex; cbn [kchain_sample];
          destruct (kchain_sample num p); reflexivity.
  Qed.

  Lemma right_sample p : right_at p (sample p) (fun _ => sample_of num explicit p).
  Proof. apply right_sample_aux, right_compute_sample. Qed.

  Lemma right_stat c p : right_at (c :: p) (stat c p) (fun _ => pure_stat c p).
  Proof. apply right_stat_of; [apply right_sample|exact I]. Qed.

  (** Reads through the cache are right when the computation is. *)
  Lemma right_cached' p k m r :
    right_at p m r -> (forall h, meant h p k = r h) -> right_at p (cached p k m) r.
  Proof.
    intros Hm E. eapply right_ext; [apply (right_cached p k m r Hm)|exact E].
    intros h. symmetry. apply E.
  Qed.

  (** ** Explicit out-of-sample data *)

  Lemma right_heap p (f : (nat -> D) -> result V) : right_at p (fun s => (f (t_heap s), s)) f.
  Proof. intros z s Hs _. exists s. split; [reflexivity|]. split; [exact Hs|apply tframe_refl]. Qed.

  Lemma right_drop {A B} p (m : M A) (f : M B) r g :
    right_at p m r -> right_at p f g ->
    right_at p (mbind m (fun _ => f)) (fun h => bind (r h) (fun _ => g h)).
  Proof. intros Hm Hf. apply (right_bind p m (fun _ => f) r (fun h _ => g h)); auto. Qed.

  Lemma right_compute_eoos : explicit = true -> forall p x,
    right_at p (compute_eoos p x) (fun h => chain_oos num p (h x)).
  Proof.
    intros Ex p. induction p as [|c p IH]; intros x.
    - apply (right_heap [] (fun h => base_oos num (h x))).
    - cbn [TransformTree.compute_eoos].
      assert (Hpo : right_at p (cached p (KOos x) (compute_eoos p x)) (fun h => chain_oos num p (h x))).
      { apply right_cached'; [apply IH|]. intros h. cbn [meant]. now rewrite Ex. }
      apply (right_child c) in Hpo.
      intros z s Hs Hp. destruct (Hpo z s Hs Hp) as (s1 & E1 & I1 & F1).
      pose proof F1 as (Fh1 & _).
      unfold mbind at 1. rewrite E1. cbn [chain_oos].
      destruct (chain_oos num p (t_heap s x)) as [o|e] eqn:Eo; cbn [bind].
      2: { exists s1. split; [reflexivity|]. split; [exact I1|exact F1]. }
      (* the statistics *)
      set (body := match c with Sphere => mret _ | _ => _ end).
      assert (Hb : exists s2, cached (c :: p) (KOosStat x) body s1 =
                 (match c with Sphere => Ok (estat num Sphere (parent_is_min p) o)
                  | _ => chain_stat num c p end, s2) /\ TInv z s2 /\ tframe s1 s2).
      { destruct (cls_eqb c Sphere) eqn:Ec.
        - apply cls_eqb_eq in Ec. subst c.
          (* the body is right only for the heap at hand, where [o] is the parent's value *)
          pose proof (fun m => right_cached (Sphere :: p) (KOosStat x)
                        (fun s => (m (t_heap s), s)) m) as H.
          specialize (H (fun h => meant h (Sphere :: p) (KOosStat x))
                        (right_heap _ _) (fun h => eq_refl) z s1 I1 (tframe_live _ _ _ F1 Hp)).
          destruct H as (s2 & E2 & I2 & F2). exists s2.
          assert (Em : meant (t_heap s1) (Sphere :: p) (KOosStat x) =
                       Ok (estat num Sphere (parent_is_min p) o)).
          { cbn [meant]. rewrite Ex, Fh1, Eo. reflexivity. }
          rewrite Em in E2. split; [|split; [exact I2|exact F2]].
          rewrite <- E2. unfold TransformTree.cached.
          destruct (nget (t_nodes s1) (Sphere :: p)) as [n|] eqn:En; [|reflexivity].
          destruct (dget _ _); [reflexivity|]. unfold body, mret. rewrite Em, En. reflexivity.
        - assert (Hbody : right_at (c :: p) body (fun h => meant h (c :: p) (KOosStat x))).
          { pose proof (right_drop (c :: p) _ _ _ _ Hpo (right_stat c p)) as H.
            destruct c; try discriminate Ec;
              (eapply right_ext; [exact H|]; intros h; cbn [meant]; unfold pure_stat; rewrite Ex; reflexivity). }
          destruct (right_cached (c :: p) (KOosStat x) _ _ Hbody (fun h => eq_refl) z s1 I1
                      (tframe_live _ _ _ F1 Hp)) as (s2 & E2 & I2 & F2).
          exists s2. split; [|split; [exact I2|exact F2]]. rewrite E2. f_equal.
          cbn [meant]. rewrite Ex, Fh1, Eo. destruct c; try discriminate Ec; reflexivity. }
      destruct Hb as (s2 & E2 & I2 & F2). unfold mbind at 1. rewrite E2.
      exists s2. split; [|split; [exact I2|eapply tframe_trans; eassumption]].
      destruct (match c with Sphere => Ok _ | _ => _ end); reflexivity.
  Qed.

  Lemma right_eoos : explicit = true -> forall p x,
    right_at p (eoos num explicit p x)
      (fun h => value_of num explicit p (option_map h x) None).
  Proof.
    intros Ex p [x|]; unfold eoos, value_of; rewrite Ex; cbn [option_map].
    - rewrite <- Ex. apply right_cached'; [apply right_compute_eoos, Ex|]. intros h. cbn [meant]. now rewrite Ex.
    - rewrite <- Ex. eapply right_ext; [apply right_compute_sample|]. intros h. unfold sample_of. now rewrite Ex.
  Qed.

  (** ** Implicit out-of-sample data *)

  Lemma right_ioos_with : explicit = false -> forall p,
    (forall x y, right_at p (compute_ioos p x y) (fun h => kchain num p (h x) (option_map h y))) ->
    forall x y, right_at p (ioos_with (compute_ioos p) p x y)
                  (fun h => value_of num explicit p (option_map h x) (option_map h y)).
  Proof.
    intros Ex p H x y. unfold TransformTree.ioos_with, value_of.
    destruct x as [x|], y as [y|]; cbn [option_map].
    - apply right_cached'.
      + eapply right_ext; [apply H|]. intros h. now rewrite Ex.
      + intros h. cbn [meant]. now rewrite Ex.
    - apply right_cached'.
      + eapply right_ext; [apply H|]. intros h. now rewrite Ex.
      + intros h. cbn [meant]. now rewrite Ex.
    - eapply right_ext.
      + apply (right_bind p _ _ (fun h => kchain num p (h y) None) (fun _ v => Ok (transp num v))).
        * apply right_cached'; [apply H|]. intros h. cbn [meant]. now rewrite Ex.
        * intros v. apply right_ret.
      + intros h. now rewrite Ex.
    - eapply right_ext; [apply right_compute_sample|]. intros h. unfold sample_of. now rewrite Ex.
  Qed.

  Lemma right_compute_ioos : explicit = false -> forall p x y,
    right_at p (compute_ioos p x y) (fun h => kchain num p (h x) (option_map h y)).
  Proof.
    intros Ex p. induction p as [|c p IH]; intros x y.
    - apply (right_heap [] (fun h => base_k num (h x) (option_map h y))).
    - pose proof (right_ioos_with Ex p IH) as Hpo.
      assert (Hpo' : forall x y, right_at (c :: p) (ioos_with (compute_ioos p) p x y)
                  (fun h => value_of num explicit p (option_map h x) (option_map h y)))
        by (intros; apply right_child, Hpo).
      clear Hpo. cbn [TransformTree.compute_ioos].
      set (ostat := ostat_of num explicit c p (ioos_with (compute_ioos p) p)).
      assert (Hst : right_at (c :: p) (stat c p) (fun _ => kchain_stat num c p)).
      { eapply right_ext; [apply right_stat|]. intros h. unfold pure_stat. now rewrite Ex. }
      assert (Ho : c = MeanCenter \/ c = Sphere -> forall z, right_at (c :: p) (ostat z)
                     (fun h => kpoint_stat num c p (kchain num p) (h z))).
      { intros Hc z. apply right_cached'; [|intros h; cbn [meant]; now rewrite Ex].
        destruct Hc as [-> | ->].
        - eapply right_ext.
          + eapply right_drop; [apply (Hpo' (Some z) None)|].
            apply (right_bind (MeanCenter :: p) _ _
                     (fun h => value_of num explicit p (option_map h (Some z)) (option_map h None))
                     (fun _ o => bind (kchain_stat num MeanCenter p) (fun t => Ok (imean_oos num o t)))).
            * apply Hpo'.
            * intros o. apply (right_bind (MeanCenter :: p) _ _ (fun _ => kchain_stat num MeanCenter p)
                                 (fun _ t => Ok (imean_oos num o t))); [exact Hst|].
              intros t. apply right_ret.
          + intros h. unfold kpoint_stat, value_of. rewrite Ex. cbn [option_map].
            destruct (kchain num p (h z) None); reflexivity.
        - unfold kpoint_stat.
          apply (right_bind (Sphere :: p) _ _ (fun h => kchain num p (h z) (Some (h z)))
                   (fun _ o => Ok (isqrt num (idiag num o)))).
          + destruct p as [|c' p'].
            * apply (right_heap [Sphere] (fun h => base_k num (h z) (Some (h z)))).
            * eapply right_ext; [apply (Hpo' (Some z) (Some z))|]. intros h. unfold value_of.
              rewrite Ex. reflexivity.
          + intros o. apply right_ret. }
      set (ystat := match y with None => _ | Some _ => _ end).
      assert (Hy : c = MeanCenter \/ c = Sphere -> right_at (c :: p) ystat (fun h =>
                 match option_map h y with None => kchain_stat num c p
                 | Some w => kpoint_stat num c p (kchain num p) w end)).
      { intros Hc. destruct y as [y|]; cbn [option_map]; [now apply Ho|exact Hst]. }
      assert (Hxy : right_at (c :: p) (ioos_with (compute_ioos p) p (Some x) y)
                      (fun h => kchain num p (h x) (option_map h y))).
      { eapply right_ext; [apply Hpo'|]. intros h. unfold value_of. rewrite Ex. reflexivity. }
      clearbody ystat ostat.
      destruct c; try (apply right_ret; fail).
      + cbn [kchain].
        apply (right_bind (Sphere :: p) _ _ (fun h => kchain num p (h x) (option_map h y))
                 (fun h o => bind (kpoint_stat num Sphere p (kchain num p) (h x)) (fun tx =>
                   bind (match option_map h y with None => kchain_stat num Sphere p
                         | Some w => kpoint_stat num Sphere p (kchain num p) w end) (fun ty =>
                   Ok (iapp num Sphere o tx ty))))); [exact Hxy|]. intros o.
        apply (right_bind (Sphere :: p) _ _ (fun h => kpoint_stat num Sphere p (kchain num p) (h x))
                 (fun h tx => bind (match option_map h y with None => kchain_stat num Sphere p
                         | Some w => kpoint_stat num Sphere p (kchain num p) w end) (fun ty =>
                   Ok (iapp num Sphere o tx ty)))); [now apply Ho; right|]. intros tx.
        apply (right_bind (Sphere :: p) _ _ (fun h => match option_map h y with None => kchain_stat num Sphere p
                         | Some w => kpoint_stat num Sphere p (kchain num p) w end)
                 (fun h ty => Ok (iapp num Sphere o tx ty))); [now apply Hy; right|]. intros ty.
        apply right_ret.
      + cbn [kchain].
        apply (right_bind (MeanCenter :: p) _ _ (fun h => kpoint_stat num MeanCenter p (kchain num p) (h x))
                 (fun h tx => bind (match option_map h y with None => kchain_stat num MeanCenter p
                         | Some w => kpoint_stat num MeanCenter p (kchain num p) w end) (fun ty =>
                   bind (kchain num p (h x) (option_map h y)) (fun o =>
                   Ok (iapp num MeanCenter o tx ty))))); [now apply Ho; left|]. intros tx.
        apply (right_bind (MeanCenter :: p) _ _ (fun h => match option_map h y with None => kchain_stat num MeanCenter p
                         | Some w => kpoint_stat num MeanCenter p (kchain num p) w end)
                 (fun h ty => bind (kchain num p (h x) (option_map h y)) (fun o =>
                   Ok (iapp num MeanCenter o tx ty)))); [now apply Hy; left|]. intros ty.
        apply (right_bind (MeanCenter :: p) _ _ (fun h => kchain num p (h x) (option_map h y))
                 (fun h o => Ok (iapp num MeanCenter o tx ty))); [exact Hxy|]. intros o.
        apply right_ret.
  Qed.

  Lemma right_oos p x y :
    right_at p (oos num explicit p x y)
      (fun h => value_of num explicit p (option_map h x) (option_map h y)).
  Proof.
    unfold oos. destruct explicit eqn:Ex.
    - eapply right_ext; [rewrite <- Ex; apply right_eoos, Ex|]. intros h. unfold value_of.
      now rewrite Ex.
    - unfold ioos. rewrite <- Ex. apply right_ioos_with; [exact Ex|]. apply right_compute_ioos, Ex.
  Qed.


  (** ** Growing *)

  Lemma level_name z : 0 <= z <= 4 -> exists l,
    (forall d, get_level_name (@MkCache V (LInt z) d) = Ok l) /\ init_cache (V := V) (LStr l) = MkCache (LInt z) [].
  Proof.
    intros Hz. assert (Hc : z = 0 \/ z = 1 \/ z = 2 \/ z = 3 \/ z = 4) by lia.
    destruct Hc as [-> | [-> | [-> | [-> | ->]]]];
      [exists "none"|exists "light"|exists "normal"|exists "heavy"|exists "total"]; split; reflexivity.
  Qed.

  Lemma ensure_node_ok z s c p : TInv z s -> live s p ->
    exists s', ensure_node (c :: p) s = (Ok tt, s') /\ TInv z s' /\ live s' (c :: p) /\
      t_heap s' = t_heap s /\ t_default s' = t_default s /\
      (forall q n, nget (t_nodes s) q = Some n -> nget (t_nodes s') q = Some n) /\
      (forall q n, nget (t_nodes s') q = Some n -> nget (t_nodes s) q = Some n \/ c_entries (n_cache n) = []).
  Proof.
    intros Hs Hp. unfold ensure_node. destruct (nget (t_nodes s) (c :: p)) as [n|] eqn:En.
    - exists s. split; [reflexivity|]. split; [exact Hs|]. split; [unfold live; congruence|]. auto.
    - destruct Hs as (Hz & Hr & Hc & Hd & Ho). unfold root_level, live in *.
      destruct (nget (t_nodes s) []) as [r|] eqn:Er; [|contradiction].
      destruct (level_name z Hz) as (l & Hl & Hi).
      destruct (Ho _ _ Er) as (_ & Hrl & _). destruct (n_cache r) as [lr er] eqn:Ecr. cbn in Hrl. subst lr.
      rewrite Hl. rewrite Hi. set (s' := with_nodes s _). exists s'. split; [reflexivity|].
      assert (Hkeep : forall q m, nget (t_nodes s) q = Some m -> nget (t_nodes s') q = Some m).
      { intros q m Hq. cbn. rewrite nget_nset_other; [exact Hq|]. intros ->. congruence. }
      assert (Hnew : nget (t_nodes s') (c :: p) = Some (TNode false (MkCache (LInt z) [])))
        by (cbn; apply nget_nset_same).
      assert (Hinv : forall q m, nget (t_nodes s') q = Some m -> nget (t_nodes s) q = Some m \/
                       (q = c :: p /\ m = TNode false (MkCache (LInt z) []))).
      { intros q m Hq. cbn in Hq. destruct (path_eqb_spec q (c :: p)) as [->|Hne].
        - rewrite nget_nset_same in Hq. right. split; [reflexivity|congruence].
        - rewrite nget_nset_other in Hq by exact Hne. now left. }
      assert (Hlive : forall q, nget (t_nodes s) q <> None -> nget (t_nodes s') q <> None).
      { intros q Hq. destruct (nget (t_nodes s) q) eqn:E; [|contradiction]. rewrite (Hkeep _ _ E). discriminate. }
      split; [|split; [congruence|]].
      + unfold TInv, live. split; [exact Hz|]. split; [apply Hlive; congruence|]. split; [|split].
        * intros c' q Hq. destruct (nget (t_nodes s') (c' :: q)) as [m|] eqn:E; [|contradiction].
          destruct (Hinv _ _ E) as [E'|[E' _]].
          -- apply Hlive. apply (Hc c'). congruence.
          -- injection E' as -> ->. now apply Hlive.
        * apply NoDup_nset, Hd.
        * intros q m Hq. destruct (Hinv _ _ Hq) as [Hq'|[-> ->]]; [now apply Ho|].
          split; [constructor|]. split; [reflexivity|]. cbn. discriminate.
      + split; [reflexivity|]. split; [reflexivity|]. split; [exact Hkeep|].
        intros q m Hq. destruct (Hinv _ _ Hq) as [Hq'|[-> ->]]; [now left|now right].
  Qed.

  Lemma ensure_path_ok z p : forall s, TInv z s ->
    exists s', ensure_path p s = (Ok tt, s') /\ TInv z s' /\ live s' p /\
      t_heap s' = t_heap s /\ t_default s' = t_default s /\
      (forall q n, nget (t_nodes s) q = Some n -> nget (t_nodes s') q = Some n) /\
      (forall q n, nget (t_nodes s') q = Some n -> nget (t_nodes s) q = Some n \/ c_entries (n_cache n) = []).
  Proof.
    induction p as [|c p IH]; intros s Hs.
    - exists s. split; [reflexivity|]. split; [exact Hs|]. split; [apply Hs|]. auto.
    - destruct (IH s Hs) as (s1 & E1 & I1 & L1 & H1 & D1 & K1 & K1').
      destruct (ensure_node_ok z s1 c p I1 L1) as (s2 & E2 & I2 & L2 & H2 & D2 & K2 & K2').
      exists s2. cbn [ensure_path]. unfold mbind. rewrite E1, E2.
      split; [reflexivity|]. split; [exact I2|]. split; [exact L2|]. split; [congruence|].
      split; [congruence|]. split; [auto|]. intros q n Hq. destruct (K2' _ _ Hq) as [Hq'|Hq']; [auto|now right].
  Qed.

  Lemma keeps_live (s s' : st) :
    (forall q n, nget (t_nodes s) q = Some n -> nget (t_nodes s') q = Some n) ->
    forall q, live s q -> live s' q.
  Proof.
    unfold live. intros H q Hq. destruct (nget (t_nodes s) q) as [n|] eqn:E; [|contradiction].
    rewrite (H _ _ E). discriminate.
  Qed.

  Lemma get_tree_ok z s req : TInv z s ->
    exists s', get_tree req s = (requested (t_default s) req, s') /\ TInv z s' /\
      match requested (t_default s) req with Ok p => live s' p | Err _ => True end /\
      t_heap s' = t_heap s /\ t_default s' = t_default s /\ (forall q, live s q -> live s' q).
  Proof.
    intros Hs. unfold get_tree, requested. destruct req as [l|].
    - destruct (beautify l) as [cs|e]; cbn [bind].
      + destruct (ensure_path_ok z (rev cs) s Hs) as (s1 & E1 & I1 & L1 & H1 & D1 & K1 & _).
        exists s1. unfold mbind, mret. rewrite E1. pose proof (keeps_live s s1 K1). auto 8.
      + exists s. unfold mret. auto 8.
    - destruct (ensure_path_ok z (t_default s) s Hs) as (s1 & E1 & I1 & L1 & H1 & D1 & K1 & _).
      exists s1. unfold mbind, mret. rewrite E1. pose proof (keeps_live s s1 K1). auto 8.
  Qed.

  (** ** Cleaning *)

  Lemma node_numeric_entries h z p n : node_ok h z p n -> numeric_entries (n_cache n).
  Proof.
    intros (_ & _ & H) k e Hk. destruct (H _ _ Hk) as (k' & _ & _ & ->). apply filed_numeric.
  Qed.

  Lemma clean_node_ok h z p n : node_ok h z p n ->
    fst (clean_node n) = Ok tt /\ node_ok h z p (snd (clean_node n)) /\
    n_default (snd (clean_node n)) = n_default n /\
    (forall key e, stored (n_cache (snd (clean_node n))) key = Some e -> rank (e_level e) <= z).
  Proof.
    intros Hn. pose proof (node_numeric_entries _ _ _ _ Hn) as Hnum.
    destruct Hn as (Hwf & Hl & He). unfold clean_node.
    pose proof (clean_cache_wf (n_cache n) None Hwf) as C1.
    pose proof (clean_cache_level (n_cache n) None) as C2.
    pose proof (fun x e => clean_cache_sub (n_cache n) None x e Hwf) as C3.
    assert (C4 : fst (clean_cache (n_cache n) None) = Ok tt /\
                 forall key e, stored (snd (clean_cache (n_cache n) None)) key = Some e -> rank (e_level e) <= z).
    { destruct (Z.eq_dec z 0) as [->|Hz].
      - rewrite clean_cache_none by (cbn; exact Hl). split; [reflexivity|]. intros key e Hk.
        cbn in Hk. discriminate.
      - pose proof (fun x => clean_cache_stored (n_cache n) None z x Hwf Hnum Hl Hz) as C.
        split; [apply (C "")|]. intros key e Hk. destruct (C key) as [_ C']. rewrite C' in Hk.
        unfold clean_fate in Hk. destruct (stored (n_cache n) key) as [e0|]; [|discriminate].
        destruct (rank (e_level e0) >? z) eqn:E; [discriminate|]. injection Hk as <-. lia. }
    destruct (clean_cache (n_cache n) None) as [r c]. cbn [fst snd] in *. destruct C4 as [-> C4].
    split; [reflexivity|]. split; [|split; [reflexivity|exact C4]].
    split; [exact C1|]. split; [cbn; congruence|]. intros key e Hk. cbn in *. now apply He, C3.
  Qed.

  Lemma clean_all_eq (s : st) : clean_all s =
    (if forallb (fun pn => is_ok (fst (clean_node (snd pn)))) (t_nodes s) then Ok tt else Err ETypeError,
     with_nodes s (map (fun pn => (fst pn, snd (clean_node (snd pn)))) (t_nodes s))).
  Proof.
    unfold clean_all. f_equal.
    - assert (E : forall l : nodes V,
        forallb (fun x : path * (result unit * tnode V) => is_ok (fst (snd x)))
          (map (fun pn => (fst pn, clean_node (snd pn))) l) =
        forallb (fun pn => is_ok (fst (clean_node (snd pn)))) l).
      { induction l as [|a l IH]; cbn [forallb map fst snd]; [reflexivity|]. now rewrite IH. }
      now rewrite E.
    - rewrite map_map. reflexivity.
  Qed.

  Lemma clean_all_ok z s : TInv z s ->
    exists s', clean_all s = (Ok tt, s') /\ TInv z s' /\ tframe s s' /\
      (forall p n key e, nget (t_nodes s') p = Some n -> stored (n_cache n) key = Some e ->
         rank (e_level e) <= z).
  Proof.
    intros (Hz & Hr & Hc & Hnd & Ho). rewrite clean_all_eq.
    set (s' := with_nodes s _). exists s'.
    assert (Hall : forallb (fun pn => is_ok (fst (clean_node (snd pn)))) (t_nodes s) = true).
    { apply forallb_forall. intros [p n] Hin. cbn [snd]. apply In_nget in Hin; [|exact Hnd].
      destruct (clean_node_ok _ _ _ _ (Ho _ _ Hin)) as (-> & _). reflexivity. }
    rewrite Hall. split; [reflexivity|].
    assert (Hget : forall p, nget (t_nodes s') p = option_map (fun n => snd (clean_node n)) (nget (t_nodes s) p)).
    { intros p. cbn. apply (nget_map (fun n => snd (clean_node n))). }
    assert (F : tframe s s').
    { split; [reflexivity|]. split; [reflexivity|]. intros p. rewrite Hget.
      destruct (nget (t_nodes s) p) as [n|] eqn:E; cbn; [|reflexivity]. f_equal.
      now destruct (clean_node_ok _ _ _ _ (Ho _ _ E)) as (_ & _ & -> & _). }
    split; [|split; [exact F|]].
    - split; [exact Hz|]. split; [eapply tframe_live; eassumption|]. split.
      { intros c p Hp. eapply tframe_live; [exact F|]. apply (Hc c). eapply tframe_live_inv; eassumption. }
      split.
      { cbn. rewrite map_map. exact Hnd. }
      intros p n Hn. rewrite Hget in Hn. destruct (nget (t_nodes s) p) as [n0|] eqn:E; [|discriminate].
      cbn in Hn. injection Hn as <-. apply (clean_node_ok _ _ _ _ (Ho _ _ E)).
    - intros p n key e Hn. rewrite Hget in Hn.
      destruct (nget (t_nodes s) p) as [n0|] eqn:E; [|discriminate].
      cbn in Hn. injection Hn as <-. apply (clean_node_ok _ _ _ _ (Ho _ _ E)).
  Qed.

  (** ** The operations *)

  Lemma apply_ok z s x y req : TInv z s ->
    exists s', apply num explicit x y req s =
        (bind (requested (t_default s) req)
           (fun p => value_of num explicit p (option_map (t_heap s) x) (option_map (t_heap s) y)), s') /\
      TInv z s' /\ t_heap s' = t_heap s /\ t_default s' = t_default s /\
      (forall q, live s q -> live s' q) /\
      (is_ok (fst (apply num explicit x y req s)) = true ->
       forall p n key e, nget (t_nodes s') p = Some n -> stored (n_cache n) key = Some e ->
         rank (e_level e) <= z).
  Proof.
    intros Hs. unfold apply.
    destruct (get_tree_ok z s req Hs) as (s1 & E1 & I1 & L1 & H1 & D1 & G1).
    unfold mbind at 1 4. rewrite E1. destruct (requested (t_default s) req) as [p|e]; cbn [bind].
    2: { exists s1. cbn. split; [reflexivity|]. repeat (split; [assumption|]). discriminate. }
    destruct (right_oos p x y z s1 I1 L1) as (s2 & E2 & I2 & F2).
    pose proof (fun q => tframe_live _ _ q F2) as G2. destruct F2 as (H2 & D2 & _).
    rewrite H1 in E2. unfold mbind at 1 3. rewrite E2.
    destruct (value_of num explicit p (option_map (t_heap s) x) (option_map (t_heap s) y)) as [v|e].
    2: { exists s2. cbn. split; [reflexivity|]. split; [exact I2|]. split; [congruence|].
         split; [congruence|]. split; [auto|]. discriminate. }
    destruct (clean_all_ok z s2 I2) as (s3 & E3 & I3 & F3 & C3).
    pose proof (fun q => tframe_live _ _ q F3) as G3. destruct F3 as (H3 & D3 & _).
    unfold mbind. rewrite E3. exists s3. cbn. split; [reflexivity|]. split; [exact I3|].
    split; [congruence|]. split; [congruence|]. auto.
  Qed.

  Lemma revert_path_ok p : forall z s v, TInv z s -> live s p ->
    exists s', revert_path num explicit p v s = (revert_of num explicit p v, s') /\
      TInv z s' /\ tframe s s'.
  Proof.
    unfold revert_of. induction p as [|c p IH]; intros z s v Hs Hp.
    - exists s. split; [now destruct explicit|]. split; [exact Hs|apply tframe_refl].
    - cbn [revert_path revert_node]. destruct explicit eqn:Ex.
      2: { exists s. split; [reflexivity|]. split; [exact Hs|apply tframe_refl]. }
      assert (Hlp : live s p) by (destruct Hs as (_ & _ & Hc & _); eapply Hc, Hp).
      destruct (cls_eqb c Sphere) eqn:Ec.
      { apply cls_eqb_eq in Ec. subst c. exists s. split; [reflexivity|]. split; [exact Hs|apply tframe_refl]. }
      pose proof (right_stat c p) as Hst. unfold pure_stat in Hst. rewrite Ex in Hst.
      destruct (Hst z s Hs Hp) as (s1 & E1 & I1 & F1).
      pose proof (tframe_live _ _ _ F1 Hlp) as Hlp1.
      assert (E : forall v' : V, mbind (mbind (TransformTree.stat num true c p) (fun t => mret (Ok (erev num c v t))))
                        (fun w => revert_path num true p w) s =
                  match chain_stat num c p with
                  | Ok t => revert_path num true p (erev num c v t) s1
                  | Err e => (Err e, s1)
                  end).
      { intros _. unfold mbind at 1 2. rewrite E1. now destruct (chain_stat num c p). }
      assert (Goal' : exists s', match chain_stat num c p with
                  | Ok t => revert_path num true p (erev num c v t) s1
                  | Err e => (Err e, s1)
                  end = (bind (chain_stat num c p) (fun t => chain_revert num p (erev num c v t)), s')
                  /\ TInv z s' /\ tframe s s').
      { destruct (chain_stat num c p) as [t|e]; cbn [bind].
        - destruct (IH z s1 (erev num c v t) I1 Hlp1) as (s2 & E2 & I2 & F2).
          exists s2. split; [exact E2|]. split; [exact I2|]. eapply tframe_trans; eassumption.
        - exists s1. split; [reflexivity|]. split; [exact I1|exact F1]. }
      destruct Goal' as (s' & G1 & G2 & G3). exists s'. split; [|split; [exact G2|exact G3]].
      rewrite <- (E v) in G1.
      destruct c; try discriminate Ec; cbn [chain_revert]; rewrite <- G1; reflexivity.
  Qed.

  Lemma revert_ok z s v req : TInv z s ->
    exists s', revert num explicit v req s =
        (bind (requested (t_default s) req) (fun p => revert_of num explicit p v), s') /\
      TInv z s' /\ t_heap s' = t_heap s /\ t_default s' = t_default s /\
      (forall q, live s q -> live s' q).
  Proof.
    intros Hs. unfold revert.
    destruct (get_tree_ok z s req Hs) as (s1 & E1 & I1 & L1 & H1 & D1 & G1).
    unfold mbind. rewrite E1. destruct (requested (t_default s) req) as [p|e]; cbn [bind].
    - destruct (revert_path_ok p z s1 v I1 L1) as (s2 & E2 & I2 & F2).
      pose proof (fun q => tframe_live _ _ q F2) as G2. destruct F2 as (H2 & D2 & _).
      exists s2. split; [exact E2|]. split; [exact I2|]. split; [congruence|]. split; [congruence|auto].
    - exists s1. auto.
  Qed.

  Lemma set_tree_level_ok z s l : TInv z s -> documented_level l ->
    exists s' z', set_tree_level l s = (Ok tt, s') /\ TInv z' s' /\
      t_heap s' = t_heap s /\ t_default s' = t_default s /\
      (forall q, live s q -> live s' q) /\ get_level (LInt z) l = LInt z'.
  Proof.
    intros (Hz & Hr & Hc & Hnd & Ho) Hl. unfold set_tree_level, live in *.
    destruct (nget (t_nodes s) []) as [r|] eqn:Er; [|contradiction].
    destruct (Ho _ _ Er) as (_ & Hrl & _). rewrite Hrl.
    assert (Hl' : exists z', get_level (LInt z) l = LInt z' /\ 0 <= z' <= 4).
    { destruct l as [[n|str]|]; cbn in *.
      - exists n. auto.
      - repeat (destruct Hl as [<-|Hl]; [eexists; split; [reflexivity|lia]|]). contradiction.
      - exists z. auto. }
    destruct Hl' as (z' & Hl' & Hz'). rewrite Hl'.
    set (f := fun n : tnode V => TNode (n_default n) (MkCache (LInt z') (c_entries (n_cache n)))).
    set (s' := with_nodes s _). exists s', z'. split; [reflexivity|].
    assert (Hget : forall p, nget (t_nodes s') p = option_map f (nget (t_nodes s) p)).
    { intros p. cbn. apply (nget_map f). }
    assert (Hlive : forall q, nget (t_nodes s) q <> None <-> nget (t_nodes s') q <> None).
    { intros q. rewrite Hget. destruct (nget (t_nodes s) q); cbn; split; congruence. }
    split; [|split; [reflexivity|split; [reflexivity|split; [intros q Hq; now apply Hlive|reflexivity]]]].
    split; [exact Hz'|]. split; [apply Hlive; congruence|].
    split; [intros c p Hp; apply Hlive, (Hc c), Hlive, Hp|].
    split; [cbn; rewrite map_map; exact Hnd|].
    intros p n Hn. rewrite Hget in Hn. destruct (nget (t_nodes s) p) as [n0|] eqn:E; [|discriminate].
    cbn in Hn. injection Hn as <-. destruct (Ho _ _ E) as (Hwf & _ & He).
    split; [exact Hwf|]. split; [reflexivity|]. exact He.
  Qed.

  (** ** Histories *)

  Lemma meant_heap h h' p k :
    (forall x, mentions k x -> h' x = h x) -> meant h' p k = meant h p k.
  Proof.
    intros H. destruct k as [| |x|x y|x]; cbn [meant]; cbn in H; try reflexivity.
    - now rewrite (H x eq_refl).
    - rewrite (H x (or_introl eq_refl)), (H y (or_intror eq_refl)). reflexivity.
    - now rewrite (H x eq_refl).
  Qed.

  Lemma heap_ok z s h : TInv z s -> (forall x, holds s x -> h x = t_heap s x) ->
    TInv z (TState (t_nodes s) (t_default s) h).
  Proof.
    intros (Hz & Hr & Hc & Hd & Ho) Hh.
    split; [exact Hz|]. split; [exact Hr|]. split; [exact Hc|]. split; [exact Hd|].
    intros p n Hn. cbn in Hn. destruct (Ho _ _ Hn) as (Hwf & Hl & He).
    split; [exact Hwf|]. split; [exact Hl|]. intros key e Hk. cbn [t_heap].
    destruct (He _ _ Hk) as (k & -> & Hv & Hf). exists k. split; [reflexivity|]. split; [|exact Hf].
    rewrite <- Hv. apply meant_heap. intros x Hx. apply Hh. exists p, n, k, e. auto.
  Qed.

  Lemma tstep_ok z s o : TInv z s -> live s (t_default s) -> tadmissible s o ->
    output_is_right num explicit (t_default s) (o, t_heap s, fst (tstep num explicit s o)) /\
    (exists z', TInv z' (snd (tstep num explicit s o))) /\
    t_default (snd (tstep num explicit s o)) = t_default s /\
    (forall q, live s q -> live (snd (tstep num explicit s o)) q).
  Proof.
    intros Hs Hd Ho. destruct o as [x y req| |v req|l|h]; cbn [tstep].
    - destruct (apply_ok z s x y req Hs) as (s' & E & I & H & D' & G & _). rewrite E. cbn.
      split; [reflexivity|]. split; [now exists z|]. split; [exact D'|exact G].
    - unfold projected_sample.
      destruct (right_sample (t_default s) z s Hs Hd) as (s' & E & I & F).
      pose proof (fun q => tframe_live _ _ q F) as G. destruct F as (H & D' & _).
      rewrite E. cbn. split; [reflexivity|]. split; [now exists z|]. split; [exact D'|exact G].
    - destruct (revert_ok z s v req Hs) as (s' & E & I & H & D' & G). rewrite E. cbn.
      split; [reflexivity|]. split; [now exists z|]. split; [exact D'|exact G].
    - destruct (set_tree_level_ok z s l Hs Ho) as (s' & z' & E & I & H & D' & G & _). rewrite E. cbn.
      split; [reflexivity|]. split; [now exists z'|]. split; [exact D'|exact G].
    - cbn. split; [reflexivity|]. split; [|split; [reflexivity|auto]]. exists z. now apply heap_ok.
  Qed.

  Lemma trun_ok os : forall z s, TInv z s -> live s (t_default s) ->
    tadmissible_history num explicit s os ->
    Forall (output_is_right num explicit (t_default s)) (fst (trun num explicit s os)) /\
    exists z', TInv z' (snd (trun num explicit s os)).
  Proof.
    induction os as [|o os IH]; intros z s Hs Hl; cbn [trun tadmissible_history].
    - intros _. split; [constructor|now exists z].
    - intros [Ho Hos]. destruct (tstep_ok z s o Hs Hl Ho) as (Hr & (z' & Hi) & Hd & Hg).
      destruct (tstep num explicit s o) as [r s'] eqn:E. cbn [fst snd] in *.
      destruct (IH z' s' Hi) as [IH1 IH2]; [rewrite Hd; now apply Hg|exact Hos|]. rewrite Hd in IH1.
      destruct (trun num explicit s' os) as [rs s'']. cbn [fst snd] in *. split; [|exact IH2].
      constructor; assumption.
  Qed.

  (** ** Construction *)

  Lemma init_tree_ok req level heap s : documented_level (Some level) ->
    init_tree req level heap = Ok s ->
    (exists z, TInv z s /\ get_level (LInt 2) (Some level) = LInt z) /\ live s (t_default s) /\
    requested [] (Some req) = Ok (t_default s) /\ t_heap s = heap.
  Proof.
    intros Hl. unfold init_tree. destruct (beautify req) as [cs|e] eqn:Eb; [|discriminate].
    set (s0 := TState _ _ _).
    assert (Hl' : exists z, get_level (LInt 2) (Some level) = LInt z /\ 0 <= z <= 4).
    { destruct level as [n|str]; cbn in *.
      - exists n. auto.
      - repeat (destruct Hl as [<-|Hl]; [eexists; split; [reflexivity|lia]|]). contradiction. }
    destruct Hl' as (z & Hlz & Hz).
    assert (I0 : TInv z s0).
    { split; [exact Hz|]. split; [unfold live; cbn; discriminate|].
      split; [intros c q Hq; unfold live in Hq; cbn in Hq; contradiction|].
      split; [repeat constructor; easy|].
      intros q n Hn. cbn in Hn. destruct q; [|discriminate]. cbn in Hn. injection Hn as <-.
      split; [constructor|]. split; [cbn [n_cache c_level init_cache]; exact Hlz|]. cbn. discriminate. }
    destruct (ensure_path_ok z (rev cs) _ I0) as (s1 & E1 & I1 & L1 & H1 & D1 & _ & K1).
    rewrite E1. intros H. injection H as <-. cbn [t_default t_heap with_nodes].
    rewrite D1, H1. cbn [t_default t_heap s0].
    unfold mark_default. unfold live in L1.
    destruct (nget (t_nodes s1) (rev cs)) as [n|] eqn:En; [|contradiction].
    destruct I1 as (J1 & J2 & J3 & J5 & J6).
    set (t' := nset _ _ _). unfold live in J2, J3.
    assert (Hlive : forall q, nget (t_nodes s1) q <> None <-> nget t' q <> None).
    { intros q. subst t'. destruct (path_eqb_spec q (rev cs)) as [->|Hne].
      - rewrite nget_nset_same. split; congruence.
      - rewrite nget_nset_other by exact Hne. tauto. }
    split; [|split; [unfold live; cbn; apply Hlive; congruence|split; [cbn [requested]; now rewrite Eb|reflexivity]]].
    exists z. split; [|exact Hlz].
    split; [exact J1|]. split; [apply Hlive, J2|]. split; [intros c q Hq; apply Hlive, (J3 c), Hlive, Hq|].
    split; [apply NoDup_nset, J5|].
    intros q m Hm. cbn in Hm. subst t'. destruct (path_eqb_spec q (rev cs)) as [->|Hne].
    - rewrite nget_nset_same in Hm. injection Hm as <-.
      destruct (J6 _ _ En) as (K1' & K2 & _).
      split; [exact K1'|]. split; [exact K2|]. cbn [n_cache n_default].
      assert (Hempty : c_entries (n_cache n) = []).
      { destruct (K1 _ _ En) as [Hs0|He]; [|exact He]. cbn in Hs0.
        destruct (rev cs); [|discriminate]. cbn in Hs0. injection Hs0 as <-. reflexivity. }
      unfold stored. rewrite Hempty. cbn. discriminate.
    - rewrite nget_nset_other in Hm by exact Hne. now apply J6.
  Qed.

  (** ** What is kept after an evaluation *)

  Definition rank_filed default k :
    rank (filed default k) =
    match k with
    | KSample | KStat => if default then 1 else 2
    | KOos _ | KOos2 _ _ => 2
    | KOosStat _ => if default then 2 else 3
    end.
  Proof. destruct default, k; reflexivity. Qed.

  Lemma kept_after_apply z s x y req s' v : TInv z s ->
    apply num explicit x y req s = (Ok v, s') ->
    TInv z s' /\
    forall p n k e, nget (t_nodes s') p = Some n -> stored (n_cache n) (key_string p k) = Some e ->
      rank (filed (n_default n) k) <= z.
  Proof.
    intros Hs E. destruct (apply_ok z s x y req Hs) as (s1 & E1 & I1 & _ & _ & _ & C).
    rewrite E in C. specialize (C eq_refl). rewrite E in E1. injection E1 as _ <-.
    split; [exact I1|]. intros p n k e Hn Hk. specialize (C _ _ _ _ Hn Hk).
    destruct I1 as (_ & _ & _ & _ & Ho). destruct (Ho _ _ Hn) as (_ & _ & He).
    destruct (He _ _ Hk) as (k' & Ek & _ & Hf). apply key_string_inj in Ek. subst k'.
    now rewrite <- Hf.
  Qed.

  Lemma nothing_held_light z s : TInv z s -> z <= 1 ->
    (forall p n k e, nget (t_nodes s) p = Some n -> stored (n_cache n) (key_string p k) = Some e ->
      rank (filed (n_default n) k) <= z) ->
    forall x, ~ holds s x.
  Proof.
    intros Hs Hz H x (p & n & k & e & Hn & Hk & Hm). specialize (H _ _ _ _ Hn Hk).
    rewrite rank_filed in H. destruct k; cbn in Hm; try contradiction; destruct (n_default n); lia.
  Qed.

  (** Reading samples and statistics only adds sample data and sample statistics. *)
  Definition sample_key (k : tkey) : Prop := k = KSample \/ k = KStat.
  Definition adds_samples (s s' : st) : Prop :=
    forall q n' key e, nget (t_nodes s') q = Some n' -> stored (n_cache n') key = Some e ->
      (exists n, nget (t_nodes s) q = Some n /\ stored (n_cache n) key = Some e) \/
      (exists k, key = key_string q k /\ sample_key k).

  Lemma adds_refl s : adds_samples s s.
  Proof. intros q n key e Hn He. left. eauto. Qed.
  Lemma adds_trans s s' s'' : adds_samples s s' -> adds_samples s' s'' -> adds_samples s s''.
  Proof.
    intros H1 H2 q n key e Hn He. destruct (H2 _ _ _ _ Hn He) as [(n1 & Hn1 & He1)|H]; [|now right].
    eapply H1; eassumption.
  Qed.
  Definition quiet {A} (m : M A) : Prop := forall s, adds_samples s (snd (m s)).

  Lemma quiet_ret {A} (r : result A) : quiet (mret r).
  Proof. intros s. apply adds_refl. Qed.
  Lemma quiet_bind {A B} (m : M A) (f : A -> M B) : quiet m -> (forall a, quiet (f a)) -> quiet (mbind m f).
  Proof.
    intros Hm Hf s. unfold mbind. specialize (Hm s). destruct (m s) as [[a|e] s1]; cbn [snd] in *; [|exact Hm].
    eapply adds_trans; [exact Hm|apply Hf].
  Qed.
  Lemma quiet_cached p k m : sample_key k -> quiet m -> quiet (cached p k m).
  Proof.
    intros Hk Hm s. unfold TransformTree.cached. destruct (nget (t_nodes s) p) as [n|]; [|apply adds_refl].
    destruct (dget _ _); [apply adds_refl|]. specialize (Hm s). destruct (m s) as [[v|e] s1]; cbn [snd] in Hm.
    2: exact Hm.
    destruct (nget (t_nodes s1) p) as [n1|] eqn:En1; [|exact Hm].
    eapply adds_trans; [exact Hm|]. unfold save. destruct (lvl_le _ _) as [b|er].
    2: { intros q n' key e Hn He. cbn in Hn. destruct (path_eqb_spec q p) as [->|Hne].
         - rewrite nget_nset_same in Hn. injection Hn as <-. cbn in He. left. eauto.
         - rewrite nget_nset_other in Hn by exact Hne. left. eauto. }
    intros q n' key e Hn He. destruct (b || a_force _); cbn in Hn;
      (destruct (path_eqb_spec q p) as [->|Hne];
       [rewrite nget_nset_same in Hn; injection Hn as <-; cbn in He
       |rewrite nget_nset_other in Hn by exact Hne; left; eauto]).
    - unfold stored in He. cbn in He. destruct (string_dec key (key_string p k)) as [->|Hk'].
      + right. eauto.
      + rewrite dset_get_other in He by exact Hk'. left. eauto.
    - left. eauto.
  Qed.

  Lemma quiet_compute_sample p : quiet (compute_sample p).
  Proof.
    induction p as [|c p IH]; [apply quiet_ret|]. cbn [TransformTree.compute_sample].
    assert (Hs : quiet (cached p KSample (compute_sample p))) by (apply quiet_cached; [now left|exact IH]).
    assert (Ht : forall v, quiet (stat_of num explicit c p (cached p KSample (compute_sample p)) (Some v))).
    { intros v. apply quiet_cached; [now right|]. apply quiet_bind; [apply quiet_ret|].
      intros w. apply quiet_ret. }
    assert (Hgen : forall f : V -> V -> V, quiet (mbind (cached p KSample (compute_sample p)) (fun v =>
        mbind (stat_of num explicit c p (cached p KSample (compute_sample p)) (Some v)) (fun t =>
        mret (Ok (f v t)))))).
    { intros f. apply quiet_bind; [exact Hs|]. intros v. apply quiet_bind; [apply Ht|].
      intros t. apply quiet_ret. }
    destruct explicit; [apply Hgen|]. destruct c; try apply quiet_ret; apply Hgen.
  Qed.
  Lemma quiet_sample p : quiet (sample p).
  Proof. apply quiet_cached; [now left|apply quiet_compute_sample]. Qed.
  Lemma quiet_stat c p : quiet (stat c p).
  Proof.
    apply quiet_cached; [now right|]. apply quiet_bind; [apply quiet_sample|]. intros v. apply quiet_ret.
  Qed.
  Lemma quiet_revert_path p : forall v, quiet (revert_path num explicit p v).
  Proof.
    induction p as [|c p IH]; intros v; cbn [revert_path revert_node].
    - apply quiet_ret.
    - apply quiet_bind; [|exact IH].
      assert (Hg : quiet (mbind (stat c p) (fun t => mret (Ok (erev num c v t))))).
      { apply quiet_bind; [apply quiet_stat|]. intros t. apply quiet_ret. }
      destruct explicit; [|apply quiet_ret]. destruct c; try exact Hg. apply quiet_ret.
  Qed.

  Lemma nothing_held_adds s s' : adds_samples s s' -> (forall x, ~ holds s x) -> forall x, ~ holds s' x.
  Proof.
    intros Ha H x (p & n & k & e & Hn & Hk & Hm).
    destruct (Ha _ _ _ _ Hn Hk) as [(n0 & Hn0 & Hk0)|(k' & Ek & Hs)].
    - apply (H x). exists p, n0, k, e. auto.
    - apply key_string_inj in Ek. subst k'. destruct Hs as [-> | ->]; exact Hm.
  Qed.

  Lemma adds_get_tree z s req : TInv z s -> adds_samples s (snd (get_tree req s)).
  Proof.
    intros Hs.
    assert (H : forall p, adds_samples s (snd (ensure_path p s))).
    { intros p. destruct (ensure_path_ok z p s Hs) as (s1 & E1 & _ & _ & _ & _ & _ & K). rewrite E1. cbn.
      intros q n key e Hn He. destruct (K _ _ Hn) as [Hn0|He0]; [left; eauto|].
      unfold stored in He. rewrite He0 in He. discriminate. }
    unfold get_tree. destruct req as [l|].
    - destruct (beautify l) as [cs|e]; [|apply adds_refl]. specialize (H (rev cs)).
      unfold mbind. destruct (ensure_path (rev cs) s) as [[u|e] s1]; exact H.
    - specialize (H (t_default s)). unfold mbind. destruct (ensure_path (t_default s) s) as [[u|e] s1]; exact H.
  Qed.

  Lemma light_step z s o : TInv z s -> z <= 1 -> live s (t_default s) -> (forall x, ~ holds s x) ->
    light_op o -> succeeded (fst (tstep num explicit s o)) ->
    output_is_right num explicit (t_default s) (o, t_heap s, fst (tstep num explicit s o)) /\
    (exists z', TInv z' (snd (tstep num explicit s o)) /\ z' <= 1) /\
    t_default (snd (tstep num explicit s o)) = t_default s /\
    live (snd (tstep num explicit s o)) (t_default s) /\
    (forall x, ~ holds (snd (tstep num explicit s o)) x).
  Proof.
    intros Hs Hz Hl Hh Ho Hok.
    assert (Hadm : tadmissible s o).
    { destruct o as [x y req| |v req|l|h]; cbn; auto.
      - destruct l as [[n|str]|]; cbn in *; auto; [lia|]. destruct Ho as [<-|[<-|[]]]; auto.
      - intros x Hx. now apply Hh in Hx. }
    destruct (tstep_ok z s o Hs Hl Hadm) as (Hr & (z1 & I1) & Hd & Hg).
    split; [exact Hr|].
    destruct o as [x y req| |v req|l|h]; cbn [tstep] in *.
    - destruct (apply_ok z s x y req Hs) as (s' & E & I & _).
      destruct (apply num explicit x y req s) as [r s1] eqn:Ea. cbn [fst snd] in *.
      injection E as E <-. destruct r as [w|er]; [|contradiction].
      destruct (kept_after_apply z s x y req s1 w Hs Ea) as [_ K].
      split; [now exists z|]. split; [exact Hd|]. split; [now apply Hg|].
      now apply (nothing_held_light z s1).
    - unfold projected_sample in *.
      destruct (right_sample (t_default s) z s Hs Hl) as (s' & E & I & F).
      pose proof (quiet_sample (t_default s) s) as Q. rewrite E in *. cbn [fst snd] in *.
      split; [now exists z|]. split; [exact Hd|]. split; [now apply Hg|].
      eapply nothing_held_adds; eassumption.
    - destruct (revert_ok z s v req Hs) as (s' & E & I & _).
      assert (Q : adds_samples s (snd (revert num explicit v req s))).
      { unfold revert, mbind. pose proof (adds_get_tree z s req Hs) as Q.
        destruct (get_tree req s) as [[p|e] s1]; cbn [snd] in *; [|exact Q].
        eapply adds_trans; [exact Q|apply quiet_revert_path]. }
      rewrite E in *. cbn [fst snd] in *.
      split; [now exists z|]. split; [exact Hd|]. split; [now apply Hg|].
      eapply nothing_held_adds; eassumption.
    - destruct (set_tree_level_ok z s l Hs Hadm) as (s' & z' & E & I & _ & _ & _ & Elv).
      assert (Hn : forall p, nget (t_nodes (snd (set_tree_level l s))) p <> None ->
                 forall n', nget (t_nodes (snd (set_tree_level l s))) p = Some n' ->
                 exists n, nget (t_nodes s) p = Some n /\ c_entries (n_cache n') = c_entries (n_cache n)).
      { intros p _ n' Hn'. unfold set_tree_level in Hn'. destruct (nget (t_nodes s) []); cbn in Hn'.
        - rewrite (nget_map (fun n => TNode (n_default n) (MkCache _ (c_entries (n_cache n))))) in Hn'.
          destruct (nget (t_nodes s) p) as [n0|]; [|discriminate]. injection Hn' as <-. eauto.
        - eauto. }
      rewrite E in *. cbn [fst snd] in *.
      split; [|split; [exact Hd|split; [now apply Hg|]]].
      + exists z'. split; [exact I|]. destruct l as [[n|str]|]; cbn in Elv, Ho.
        * injection Elv as <-. lia.
        * destruct Ho as [<-|[<-|[]]]; cbn in Elv; injection Elv as <-; lia.
        * injection Elv as <-. lia.
      + intros x (p & n & k & e & Hp & Hk & Hm). destruct (Hn p ltac:(congruence) n Hp) as (n0 & Hn0 & Ee).
        apply (Hh x). exists p, n0, k, e. split; [exact Hn0|]. split; [|exact Hm].
        unfold stored in *. now rewrite <- Ee.
    - cbn [fst snd] in *. split; [|split; [reflexivity|split; [exact Hl|]]].
      + exists z. split; [|exact Hz]. apply heap_ok; [exact Hs|]. intros x Hx. now apply Hh in Hx.
      + intros x (p & n & k & e & H). apply (Hh x). exists p, n, k, e. exact H.
  Qed.

  Lemma light_run os : forall z s, TInv z s -> z <= 1 -> live s (t_default s) -> (forall x, ~ holds s x) ->
    Forall light_op os -> Forall (fun e => succeeded (snd e)) (fst (trun num explicit s os)) ->
    Forall (output_is_right num explicit (t_default s)) (fst (trun num explicit s os)).
  Proof.
    induction os as [|o os IH]; intros z s Hs Hz Hl Hh Ho; cbn [trun].
    - constructor.
    - inversion Ho as [|? ? Ho1 Hos]; subst.
      pose proof (light_step z s o Hs Hz Hl Hh Ho1) as Hstep.
      destruct (tstep num explicit s o) as [r s'] eqn:E. cbn [fst snd] in Hstep.
      specialize (IH) with (s := s').
      destruct (trun num explicit s' os) as [rs s'']. cbn [fst snd] in *. intros Hok.
      inversion Hok as [|? ? Hok1 Hok2]; subst. cbn [snd] in Hok1.
      destruct (Hstep Hok1) as (Hr & (z' & I' & Hz') & Hd & Hl' & Hh').
      constructor; [exact Hr|]. rewrite <- Hd. apply (IH z'); auto. now rewrite Hd.
  Qed.

  Lemma init_holds_nothing req level heap s :
    init_tree (V := V) (D := D) req level heap = Ok s -> forall x, ~ holds s x.
  Proof.
    unfold init_tree. destruct (beautify req) as [cs|e]; [|discriminate].
    set (s0 := TState _ _ _).
    assert (Hnew : forall p (s1 s2 : st) (n : tnode V), (forall q m, nget (t_nodes s1) q = Some m -> c_entries (n_cache m) = []) ->
              ensure_path p s1 = (Ok tt, s2) ->
              forall q m, nget (t_nodes s2) q = Some m -> c_entries (n_cache m) = []).
    { induction p as [|c p IH]; intros s1 s2 n0 H1 E q m Hq.
      - cbn in E. injection E as <-. eauto.
      - cbn [ensure_path] in E. unfold mbind in E. destruct (ensure_path p s1) as [[[]|er] s3] eqn:E3; [|discriminate].
        specialize (IH s1 s3 n0 H1 E3). unfold ensure_node in E.
        destruct (nget (t_nodes s3) (c :: p)) eqn:En; [injection E as <-; eauto|].
        destruct (root_level s3); [|discriminate]. injection E as <-. cbn in Hq.
        destruct (path_eqb_spec q (c :: p)) as [->|Hne].
        + rewrite nget_nset_same in Hq. injection Hq as <-. reflexivity.
        + rewrite nget_nset_other in Hq by exact Hne. eauto. }
    destruct (ensure_path (rev cs) s0) as [[[]|er] s1] eqn:E1; [|discriminate].
    intros H. injection H as <-. intros x (p & n & k & e & Hn & Hk & _). cbn in Hn.
    assert (Hall : forall q m, nget (t_nodes s1) q = Some m -> c_entries (n_cache m) = []).
    { apply (Hnew (rev cs) s0 s1 (TNode false (init_cache level))); [|exact E1].
      intros q m Hq. cbn in Hq. destruct q; [|discriminate]. cbn in Hq. injection Hq as <-. reflexivity. }
    unfold mark_default in Hn. destruct (nget (t_nodes s1) (rev cs)) as [m|] eqn:Em.
    - destruct (path_eqb_spec p (rev cs)) as [->|Hne].
      + rewrite nget_nset_same in Hn. injection Hn as <-. unfold stored in Hk. cbn in Hk.
        rewrite (Hall _ _ Em) in Hk. discriminate.
      + rewrite nget_nset_other in Hn by exact Hne. unfold stored in Hk. rewrite (Hall _ _ Hn) in Hk. discriminate.
    - unfold stored in Hk. rewrite (Hall _ _ Hn) in Hk. discriminate.
  Qed.

  (** From the normal level on the result of an evaluation is kept. *)
  Lemma cached_keeps z s p k m v s' : TInv z s -> live s p -> rank (filed true k) <= z -> rank (filed false k) <= z ->
    right_at p m (fun h => meant h p k) ->
    cached p k m s = (Ok v, s') ->
    exists n e, nget (t_nodes s') p = Some n /\ stored (n_cache n) (key_string p k) = Some e /\ e_val e = v.
  Proof.
    intros Hs Hp Hk1 Hk2 Hm. unfold TransformTree.cached.
    destruct (nget (t_nodes s) p) as [n|] eqn:En; [|discriminate].
    destruct (dget _ _) as [e|] eqn:Ee.
    - intros H. injection H as <- <-. exists n, e. auto.
    - destruct (Hm z s Hs Hp) as (s1 & E1 & I1 & F1). rewrite E1.
      destruct (meant (t_heap s) p k) as [w|er]; [|discriminate].
      destruct (nget (t_nodes s1) p) as [n1|] eqn:En1; [|discriminate].
      destruct I1 as (_ & _ & _ & _ & Ho). destruct (Ho _ _ En1) as (_ & Hlv & _).
      unfold save. cbn [a_level_key a_default_level tkey_args a_force]. rewrite filed_any, Hlv.
      rewrite lvl_le_numeric; [|apply filed_numeric|now exists z].
      assert (Hb : (rank (filed (n_default n1) k) <=? rank (LInt z)) = true).
      { apply Z.leb_le. cbn. destruct (n_default n1); assumption. }
      rewrite Hb. cbn [orb]. intros H. injection H as <- <-. cbn [t_nodes with_nodes].
      rewrite nget_nset_same. eexists _, _. split; [reflexivity|]. unfold stored. cbn.
      rewrite dset_get_same. split; reflexivity.
  Qed.
End Proofs.
