(** The values of the options. *)
From Coq Require Import Permutation.
From Verif Require Import Base BaseProofs Classes Abstract AbstractSpec Options OptionsSpec.
Open Scope nat_scope.
Open Scope string_scope.
Open Scope list_scope.

Lemma dget_app : forall (a b : dict value) n, dget (a ++ b) n = match dget a n with Some v => Some v | None => dget b n end.
Proof. induction a as [|[k v] a IH]; intros b n; [reflexivity|]. simpl. destruct (String.eqb k n); [reflexivity | apply IH]. Qed.
Lemma dget_without : forall n m (d : dict value), dget (without n d) m = if String.eqb n m then None else dget d m.
Proof.
  intros n m d. induction d as [|[k v] d IH]; simpl; [destruct (String.eqb n m); reflexivity|].
  destruct (String.eqb k n) eqn:E; simpl.
  - apply String.eqb_eq in E. subst k. rewrite IH. destruct (String.eqb n m); reflexivity.
  - destruct (String.eqb k m) eqn:F; [|exact IH].
    apply String.eqb_eq in F. subst m. rewrite String.eqb_sym, E. reflexivity.
Qed.

(** What a list of readings gives, when no name is read twice. *)
Definition seen (kw : dict value) (r : string * option value) : option value :=
  match dget kw (fst r) with Some v => Some v | None => snd r end.
Definition popped (rs : list (string * option value)) : list string :=
  map fst (filter (fun r => match snd r with Some _ => true | None => false end) rs).

Lemma reads_spec : forall c rs kw out kw', NoDup (map fst rs) -> read_options c kw rs = Ok (out, kw') ->
  Forall2 (fun r o => fst o = (c, fst r) /\ seen kw r = Some (snd o)) rs out /\
  (forall n, dget kw' n = if smem n (popped rs) then None else dget kw n).
Proof.
  intros c rs. induction rs as [|[n d] rs IH]; intros kw out kw' ND H.
  - injection H as <- <-. split; [constructor | reflexivity].
  - cbn [map fst] in ND. apply NoDup_cons_iff in ND. destruct ND as [N ND]. cbn [read_options] in H.
    unfold read_option in H. cbn [fst snd] in H.
    destruct d as [v|].
    + cbn [bind fst snd] in H. destruct (read_options c (without n kw) rs) as [[o k]|e] eqn:E; [|discriminate H]. cbn [bind fst snd] in H.
      injection H as <- <-. destruct (IH _ _ _ ND E) as [F G]. split.
      * constructor.
        { split; [reflexivity|]. unfold seen. cbn [fst snd]. destruct (dget kw n); reflexivity. }
        { clear -F N. induction F as [|r o' rs' os' [F1 F2] F IH]; constructor.
          - split; [exact F1|]. rewrite <- F2. unfold seen. rewrite dget_without.
            destruct (String.eqb n (fst r)) eqn:E; [|reflexivity]. apply String.eqb_eq in E. exfalso. apply N. left. symmetry. exact E.
          - apply IH. intro I. apply N. right. exact I. }
      * intro m. rewrite G. unfold popped. cbn [filter snd map fst smem existsb]. rewrite dget_without.
        fold (popped rs). unfold smem. rewrite (String.eqb_sym m n). destruct (String.eqb n m); [|reflexivity].
        cbn [orb]. destruct (existsb (String.eqb m) (popped rs)); reflexivity.
    + destruct (dget kw n) as [w|] eqn:D; [|discriminate H]. cbn [bind fst snd] in H.
      destruct (read_options c kw rs) as [[o k]|e] eqn:E; [|discriminate H]. cbn [bind fst snd] in H.
      injection H as <- <-. destruct (IH _ _ _ ND E) as [F G]. split; [constructor; [split; [reflexivity|unfold seen; cbn [fst snd]; rewrite D; reflexivity] | exact F] | exact G].
Qed.

Lemma reads_ok : forall c rs kw, NoDup (map fst rs) -> (forall n, In (n, None) rs -> dget kw n <> None) -> exists x, read_options c kw rs = Ok x.
Proof.
  intros c rs. induction rs as [|[n d] rs IH]; intros kw ND H; [eexists; reflexivity|].
  cbn [map fst] in ND. apply NoDup_cons_iff in ND. destruct ND as [N ND].
  cbn [read_options]. unfold read_option. cbn [fst snd]. destruct d as [v|].
  - cbn [bind fst snd]. destruct (IH (without n kw) ND) as [x X].
    + intros m I. rewrite dget_without. destruct (String.eqb n m) eqn:E.
      * apply String.eqb_eq in E. subst m. exfalso. apply N. apply (in_map fst) in I. exact I.
      * apply H. right. exact I.
    + rewrite X. eexists. reflexivity.
  - assert (G := H n (or_introl eq_refl)). destruct (dget kw n) as [w|]; [|contradiction G; reflexivity].
    cbn [bind fst snd]. destruct (IH kw ND) as [x X]; [intros m I; apply H; right; exact I|]. rewrite X. eexists. reflexivity.
Qed.

Lemma F2_In : forall c rs kw out, Forall2 (fun r (o : string * string * value) => fst o = (c, fst r) /\ seen kw r = Some (snd o)) rs out ->
  forall x n v, In (x, n, v) out -> x = c /\ exists d, In (n, d) rs /\ seen kw (n, d) = Some v.
Proof.
  intros c rs kw out F. induction F as [|[m d] o rs' os' [F1 F2] F IH]; intros x n v I; [destruct I|].
  destruct I as [-> | I].
  - cbn [fst snd] in F1, F2. injection F1 as -> ->. split; [reflexivity|]. exists d. split; [left; reflexivity | exact F2].
  - destruct (IH x n v I) as [E [d' [J S]]]. split; [exact E|]. exists d'. split; [right; exact J | exact S].
Qed.
Lemma F2_names : forall c rs kw out, Forall2 (fun r (o : string * string * value) => fst o = (c, fst r) /\ seen kw r = Some (snd o)) rs out ->
  map fst out = map (fun n => (c, n)) (map fst rs).
Proof.
  intros c rs kw out F. induction F as [|r o rs' os' [F1 _] F IH]; [reflexivity|]. cbn [map]. rewrite F1, IH. reflexivity.
Qed.

Lemma dget_nodup : forall (A : Type) (l : list (string * A)) n d, NoDup (map fst l) -> In (n, d) l -> dget l n = Some d.
Proof.
  intros A l n d. induction l as [|[k v] l IH]; intros ND I; [destruct I|].
  cbn [map fst] in ND. apply NoDup_cons_iff in ND. destruct ND as [N ND]. simpl.
  destruct I as [I | I].
  - injection I as -> ->. rewrite String.eqb_refl. reflexivity.
  - destruct (String.eqb k n) eqn:E; [|apply IH; assumption]. apply String.eqb_eq in E. subst k. exfalso. apply N. apply (in_map fst) in I. exact I.
Qed.
Lemma split_nodup : forall (A : Type) (a b : list (string * A)), NoDup (map fst (a ++ b)) -> NoDup (map fst a) /\ NoDup (map fst b) /\ forall n, In n (map fst a) -> ~ In n (map fst b).
Proof.
  intros A a b H. rewrite map_app in H. induction a as [|x a IH]; cbn [map app] in *.
  - split; [constructor|]. split; [exact H | intros n []].
  - apply NoDup_cons_iff in H. destruct H as [N H]. destruct (IH H) as [P [Q R]]. split; [|split].
    + constructor; [intro I; apply N, in_or_app; left; exact I | exact P].
    + exact Q.
    + intros n [<- | I]; [intro J; apply N, in_or_app; right; exact J | apply R, I].
Qed.

(** *** Along the chain *)
Lemma chain : forall tb mro kw out, NoDup mro -> reads_once tb mro -> construct tb mro kw = Ok out ->
  forall c n v, In (c, n, v) out -> In c mro /\ In n (names_read (tb c)) /\
    (hidden tb mro c n = false -> (In n (map fst (l_after (tb c))) -> ~ In n (dkeys (forced c))) -> Some v = match dget kw n with Some w => Some w | None => default tb mro c n end).
Proof.
  intros tb mro. induction mro as [|x rest IH]; intros kw out ND RO H c n v I.
  - injection H as <-. destruct I.
  - cbn [construct] in H. set (kw1 := over (l_defaults (tb x)) kw) in H.
    destruct (warns x kw1); [discriminate H|].
    destruct (read_options x kw1 (l_before (tb x))) as [[o1 k1]|e] eqn:E1; [|discriminate H]. cbn [bind fst snd] in H.
    destruct (construct tb rest (over k1 (forced x))) as [r|e] eqn:E2; [|discriminate H]. cbn [bind fst snd] in H.
    destruct (read_options x (over k1 (forced x)) (l_after (tb x))) as [[o2 k2]|e] eqn:E3; [|discriminate H]. cbn [bind fst snd] in H.
    injection H as <-.
    apply NoDup_cons_iff in ND. destruct ND as [Nx ND].
    assert (RX := RO x (or_introl eq_refl)). unfold names_read in RX.
    destruct (split_nodup _ _ _ RX) as [NB [NA DIS]].
    destruct (reads_spec _ _ _ _ _ NB E1) as [F1 G1]. destruct (reads_spec _ _ _ _ _ NA E3) as [F3 _].
    assert (K1 : forall m, dget kw1 m = match dget kw m with Some w => Some w | None => dget (l_defaults (tb x)) m end)
      by (intro m; unfold kw1, over; apply dget_app).
    assert (POP : forall m, smem m (popped (l_before (tb x))) = true -> In m (map fst (l_before (tb x)))).
    { intros m S. apply smem_In in S. unfold popped in S. apply in_map_iff in S. destruct S as [y [Y S]]. apply filter_In in S. apply in_map_iff. exists y. tauto. }
    assert (PK : forall m, smem m (kept tb x) = false -> smem m (popped (l_before (tb x))) = false /\ dget (forced x) m = None).
    { intros m S. apply smem_not_In in S. unfold kept in S. split.
      - apply smem_not_In. intro J. apply S, in_or_app. left. exact J.
      - apply dget_None. intro J. apply S, in_or_app. right. exact J. }
    apply in_app_or in I. destruct I as [I | I]; [|apply in_app_or in I; destruct I as [I | I]].
    + destruct (F2_In _ _ _ _ F1 _ _ _ I) as [-> [d [J S]]]. split; [left; reflexivity|]. split.
      * unfold names_read. rewrite map_app. apply in_or_app. left. apply (in_map fst) in J. exact J.
      * intros _ _. cbn [default]. rewrite String.eqb_refl. unfold seen in S. cbn [fst snd] in S. rewrite K1 in S.
        destruct (dget kw n); [symmetry; exact S|]. destruct (dget (l_defaults (tb x)) n); [symmetry; exact S|].
        unfold own_default. rewrite (dget_nodup _ _ n d RX); [symmetry; exact S | apply in_or_app; left; exact J].
    + destruct (IH _ _ ND (fun c' I' => RO c' (or_intror I')) E2 c n v I) as [IC [IN V]].
      split; [right; exact IC|]. split; [exact IN|]. intros HD FO. cbn [hidden] in HD.
      assert (XC : String.eqb x c = false) by (apply String.eqb_neq; intros ->; contradiction).
      rewrite XC in HD. apply orb_false_iff in HD. destruct HD as [HK HR].
      rewrite (V HR FO). cbn [default]. rewrite XC.
      destruct (PK n HK) as [P1 P2]. unfold over. rewrite dget_app, P2, G1, P1, K1.
      destruct (dget kw n); [reflexivity|]. destruct (dget (l_defaults (tb x)) n); reflexivity.
    + destruct (F2_In _ _ _ _ F3 _ _ _ I) as [-> [d [J S]]]. split; [left; reflexivity|]. split.
      * unfold names_read. rewrite map_app. apply in_or_app. right. apply (in_map fst) in J. exact J.
      * intros _ FO. cbn [default]. rewrite String.eqb_refl. unfold seen in S. cbn [fst snd] in S.
        unfold over in S. rewrite dget_app in S.
        assert (P2 : dget (forced x) n = None) by (apply dget_None, FO; apply (in_map fst) in J; exact J).
        assert (P1 : smem n (popped (l_before (tb x))) = false).
        { destruct (smem n (popped (l_before (tb x)))) eqn:P; [|reflexivity]. exfalso. apply (DIS n (POP n P)). apply (in_map fst) in J. exact J. }
        rewrite P2, G1, P1, K1 in S.
        destruct (dget kw n); [symmetry; exact S|]. destruct (dget (l_defaults (tb x)) n); [symmetry; exact S|].
        unfold own_default. rewrite (dget_nodup _ _ n d RX); [symmetry; exact S | apply in_or_app; right; exact J].
Qed.

(** Everything is read, once. *)
Lemma everything : forall tb mro kw out, reads_once tb mro -> construct tb mro kw = Ok out -> Permutation (map fst out) (all_reads tb mro).
Proof.
  intros tb mro. induction mro as [|x rest IH]; intros kw out RO H.
  - injection H as <-. constructor.
  - cbn [construct] in H. set (kw1 := over (l_defaults (tb x)) kw) in H.
    destruct (warns x kw1); [discriminate H|].
    destruct (read_options x kw1 (l_before (tb x))) as [[o1 k1]|e] eqn:E1; [|discriminate H]. cbn [bind fst snd] in H.
    destruct (construct tb rest (over k1 (forced x))) as [r|e] eqn:E2; [|discriminate H]. cbn [bind fst snd] in H.
    destruct (read_options x (over k1 (forced x)) (l_after (tb x))) as [[o2 k2]|e] eqn:E3; [|discriminate H]. cbn [bind fst snd] in H.
    injection H as <-.
    assert (RX := RO x (or_introl eq_refl)). unfold names_read in RX.
    destruct (split_nodup _ _ _ RX) as [NB [NA _]].
    destruct (reads_spec _ _ _ _ _ NB E1) as [F1 _]. destruct (reads_spec _ _ _ _ _ NA E3) as [F3 _].
    specialize (IH _ _ (fun c' I' => RO c' (or_intror I')) E2).
    rewrite !map_app, (F2_names _ _ _ _ F1), (F2_names _ _ _ _ F3). cbn [all_reads flat_map]. unfold names_read. rewrite !map_app, <- app_assoc.
    apply Permutation_app_head. rewrite IH. apply Permutation_app_comm.
Qed.

(** A chain without warnings always succeeds. *)
Lemma succeeds : forall tb mro kw, reads_once tb mro -> defined tb mro ->
  (forall c, In c mro -> forall kw', warns c kw' = false) -> exists out, construct tb mro kw = Ok out.
Proof.
  intros tb mro. induction mro as [|x rest IH]; intros kw RO DF W; [eexists; reflexivity|].
  cbn [construct]. rewrite (W x (or_introl eq_refl)).
  assert (RX := RO x (or_introl eq_refl)). unfold names_read in RX. destruct (split_nodup _ _ _ RX) as [NB [NA DIS]].
  assert (D : forall n, In (n, None) (l_before (tb x) ++ l_after (tb x)) -> dget (over (l_defaults (tb x)) kw) n <> None).
  { intros n I. unfold over. rewrite dget_app. destruct (dget kw n); [discriminate|]. intro N. apply dget_None in N. apply N, (DF x n (or_introl eq_refl) I). }
  destruct (reads_ok x (l_before (tb x)) (over (l_defaults (tb x)) kw) NB) as [[o1 k1] E1]; [intros n I; apply D, in_or_app; left; exact I|].
  rewrite E1. cbn [bind fst snd].
  destruct (IH (over k1 (forced x)) (fun c' I' => RO c' (or_intror I')) (fun c' n' I' => DF c' n' (or_intror I')) (fun c' I' => W c' (or_intror I'))) as [r E2].
  rewrite E2. cbn [bind].
  destruct (reads_spec _ _ _ _ _ NB E1) as [_ G1].
  destruct (reads_ok x (l_after (tb x)) (over k1 (forced x)) NA) as [y E3].
  { intros n I. unfold over. rewrite dget_app. destruct (dget (forced x) n); [discriminate|]. rewrite G1.
    destruct (smem n (popped (l_before (tb x)))) eqn:P.
    - exfalso. apply smem_In in P. unfold popped in P. apply in_map_iff in P. destruct P as [z [Z P]]. apply filter_In in P.
      apply (DIS n); [apply in_map_iff; exists z; tauto | apply (in_map fst) in I; exact I].
    - apply D, in_or_app. right. exact I. }
  rewrite E3. eexists. reflexivity.
Qed.

(** *** When a chain succeeds *)
Lemma warns_spec : forall c kw, warns c kw = match neglected c with
  | Some (n, vs) => match dget kw n with Some v => negb (existsb (is_value v) vs) | None => false end | None => false end.
Proof.
  intros c kw. unfold warns, neglected.
  destruct (String.eqb c "RBF"); [destruct (dget kw "squared") as [[| | |s]|]; reflexivity|].
  destruct (String.eqb c "Laplacian"); [destruct (dget kw "squared") as [[| | |s]|]; reflexivity|].
  destruct (String.eqb c "Ridge"); [destruct (dget kw "requires_bias") as [[| | |s]|]; reflexivity|]. reflexivity.
Qed.
Lemma is_value_eq : forall v w, is_value v w = true <-> v = w.
Proof.
  intros [| | |a] [| | |b]; simpl; split; intro H; try reflexivity; try discriminate H.
  - apply String.eqb_eq in H. rewrite H. reflexivity.
  - injection H as ->. apply String.eqb_refl.
Qed.
Lemma warns_false : forall c kw, warns c kw = false <-> (forall n vs v, neglected c = Some (n, vs) -> dget kw n = Some v -> In v vs).
Proof.
  intros c kw. rewrite warns_spec. destruct (neglected c) as [[n vs]|]; [|split; [intros _ n vs v H; discriminate H | reflexivity]].
  destruct (dget kw n) as [v|] eqn:D.
  - rewrite negb_false_iff, existsb_exists. split.
    + intros [w [I E]] n' vs' v' H H'. injection H as <- <-. rewrite D in H'. injection H' as <-. apply is_value_eq in E. subst w. exact I.
    + intro H. exists v. split; [apply (H n vs v eq_refl D) | apply is_value_eq; reflexivity].
  - split; [intros _ n' vs' v' H H'; injection H as <- <-; rewrite D in H'; discriminate H' | reflexivity].
Qed.

Fixpoint before_default (tb : string -> layer) (mro : cls) (c n : string) : option value :=
  match mro with
  | [] => None
  | x :: rest => match dget (l_defaults (tb x)) n with Some d => Some d | None => if String.eqb x c then None else before_default tb rest c n end
  end.
Lemma when_ok : forall tb mro kw, NoDup mro -> reads_once tb mro -> defined tb mro ->
  (forall c n vs, In c mro -> neglected c = Some (n, vs) -> hidden tb mro c n = false) ->
  (is_ok (construct tb mro kw) = true <->
   forall c n vs v, In c mro -> neglected c = Some (n, vs) -> (match dget kw n with Some w => Some w | None => before_default tb mro c n end) = Some v -> In v vs) /\
  (forall e, construct tb mro kw = Err e -> e = EAttributeError).
Proof.
  intros tb mro. induction mro as [|x rest IH]; intros kw ND RO DF HF.
  - split; [split; [intros _ c n vs v [] | reflexivity] | intros e H; discriminate H].
  - cbn [construct]. set (kw1 := over (l_defaults (tb x)) kw).
    apply NoDup_cons_iff in ND. destruct ND as [Nx ND].
    assert (K1 : forall m, dget kw1 m = match dget kw m with Some w => Some w | None => dget (l_defaults (tb x)) m end)
      by (intro m; unfold kw1, over; apply dget_app).
    destruct (warns x kw1) eqn:W.
    { split; [|intros e H; injection H as <-; reflexivity].
      split; [discriminate|]. intro H. exfalso.
      assert (F : warns x kw1 = false); [|congruence].
      apply warns_false. intros n vs v N D. apply (H x n vs v (or_introl eq_refl) N). cbn [before_default]. rewrite String.eqb_refl. rewrite K1 in D.
      destruct (dget kw n); [exact D|]. destruct (dget (l_defaults (tb x)) n); exact D. }
    assert (RX := RO x (or_introl eq_refl)). unfold names_read in RX. destruct (split_nodup _ _ _ RX) as [NB [NA DIS]].
    assert (D : forall n, In (n, None) (l_before (tb x) ++ l_after (tb x)) -> dget kw1 n <> None).
    { intros n I. rewrite K1. destruct (dget kw n); [discriminate|]. intro N. apply dget_None in N. apply N, (DF x n (or_introl eq_refl) I). }
    destruct (reads_ok x (l_before (tb x)) kw1 NB) as [[o1 k1] E1]; [intros n I; apply D, in_or_app; left; exact I|].
    rewrite E1. cbn [bind fst snd].
    destruct (reads_spec _ _ _ _ _ NB E1) as [_ G1].
    destruct (reads_ok x (l_after (tb x)) (over k1 (forced x)) NA) as [y E3].
    { intros n I. unfold over. rewrite dget_app. destruct (dget (forced x) n); [discriminate|]. rewrite G1.
      destruct (smem n (popped (l_before (tb x)))) eqn:P.
      - exfalso. apply smem_In in P. unfold popped in P. apply in_map_iff in P. destruct P as [z [Z P]]. apply filter_In in P.
        apply (DIS n); [apply in_map_iff; exists z; tauto | apply (in_map fst) in I; exact I].
      - apply D, in_or_app. right. exact I. }
    assert (HF' : forall c n vs, In c rest -> neglected c = Some (n, vs) -> smem n (kept tb x) = false /\ hidden tb rest c n = false).
    { intros c n vs I N. specialize (HF c n vs (or_intror I) N). cbn [hidden] in HF.
      assert (XC : String.eqb x c = false) by (apply String.eqb_neq; intros ->; contradiction). rewrite XC in HF. apply orb_false_iff in HF. exact HF. }
    destruct (IH (over k1 (forced x)) ND (fun c' I' => RO c' (or_intror I')) (fun c' n' I' => DF c' n' (or_intror I'))
      (fun c' n' vs' I' N' => proj2 (HF' c' n' vs' I' N'))) as [IH1 IH2].
    assert (SAME : forall c n vs, In c rest -> neglected c = Some (n, vs) ->
      match dget (over k1 (forced x)) n with Some w => Some w | None => before_default tb rest c n end =
      match dget kw n with Some w => Some w | None => before_default tb (x :: rest) c n end).
    { intros c n vs I N. destruct (HF' c n vs I N) as [HK _].
      assert (XC : String.eqb x c = false) by (apply String.eqb_neq; intros ->; contradiction).
      apply smem_not_In in HK. unfold kept in HK.
      assert (P1 : smem n (popped (l_before (tb x))) = false) by (apply smem_not_In; intro J; apply HK, in_or_app; left; exact J).
      assert (P2 : dget (forced x) n = None) by (apply dget_None; intro J; apply HK, in_or_app; right; exact J).
      unfold over. rewrite dget_app, P2, G1, P1, K1. cbn [before_default]. rewrite XC.
      destruct (dget kw n); [reflexivity|]. destruct (dget (l_defaults (tb x)) n); reflexivity. }
    split.
    + destruct (construct tb rest (over k1 (forced x))) as [r|e] eqn:E2; cbn [bind is_ok]; [rewrite E3|]; cbn [bind is_ok].
      * split; [intros _|reflexivity]. intros c n vs v [<- | I] N V.
        { apply (proj1 (warns_false x kw1) W n vs v N). rewrite K1. cbn [before_default] in V. rewrite String.eqb_refl in V.
          destruct (dget kw n); [exact V|]. destruct (dget (l_defaults (tb x)) n); exact V. }
        { apply (proj1 IH1 eq_refl c n vs v I N). rewrite (SAME c n vs I N). exact V. }
      * split; [discriminate|]. intro H. exfalso.
        assert (F : is_ok (Err e : result (list (string * string * value))) = true); [|discriminate F].
        apply IH1. intros c n vs v I N V. apply (H c n vs v (or_intror I) N). rewrite <- (SAME c n vs I N). exact V.
    + intros e. destruct (construct tb rest (over k1 (forced x))) as [r|e'] eqn:E2; cbn [bind]; [rewrite E3; discriminate|].
      intro H. injection H as <-. apply IH2. reflexivity.
Qed.

(** *** The classes of kerch *)
Fixpoint nodup_b (l : list string) : bool := match l with [] => true | x :: t => negb (smem x t) && nodup_b t end.
Lemma nodup_b_ok : forall l, nodup_b l = true -> NoDup l.
Proof.
  induction l as [|x l IH]; intro H; [constructor|]. cbn in H. apply andb_prop in H. destruct H as [H1 H2].
  constructor; [apply smem_not_In, negb_true_iff, H1 | apply IH, H2].
Qed.
Definition eq_ov (a b : option value) : bool := match a, b with Some v, Some w => is_value v w | None, None => true | _, _ => false end.
Lemma eq_ov_eq : forall a b, eq_ov a b = true -> a = b.
Proof. intros [v|] [w|] H; try discriminate H; [apply is_value_eq in H; rewrite H|]; reflexivity. Qed.
Definition class_check (mro : cls) : bool :=
  nodup_b mro &&
  forallb (fun c => nodup_b (names_read (layer_of c)) &&
    forallb (fun r => match snd r with None => smem (fst r) (dkeys (l_defaults (layer_of c))) | Some _ => true end) (l_before (layer_of c) ++ l_after (layer_of c)) &&
    forallb (fun n => (Bool.eqb (hidden layer_of mro c n) (overruled mro c n)) && negb (smem n (map fst (l_after (layer_of c))) && smem n (dkeys (forced c))) &&
                      eq_ov (default layer_of mro c n) (documented_default mro c n)) (names_read (layer_of c)) &&
    match neglected c with
    | Some (n, vs) => negb (hidden layer_of mro c n) &&
        match before_default layer_of mro c n with Some d => existsb (is_value d) vs | None => true end
    | None => true end) mro &&
  negb (smem "RBF" mro && smem "Laplacian" mro).
Definition neglect_check (k : string) (w : value) (mro : cls) : bool :=
  if smem k mro then
    smem "Exponential" (after k mro) && negb (smem "Exponential" (firstn (List.length mro - List.length (after k mro)) mro)) &&
    smem "squared" (kept layer_of k) && negb (hidden layer_of (after k mro) "Exponential" "squared") &&
    match dget (forced k) "squared" with Some v => is_value v w | None => eq_ov (default layer_of (after k mro) "Exponential" "squared") (Some w) end
  else true.
Lemma all_neglect : forallb (fun mro => neglect_check "RBF" VTrue mro && neglect_check "Laplacian" VFalse mro) objects = true.
Proof. vm_compute. reflexivity. Qed.
Lemma all_checked : forallb class_check objects = true.
Proof. vm_compute. reflexivity. Qed.

(** The value of an option that a class keeps, for those after. *)
Lemma suffix : forall tb pre x rest kw out, NoDup (pre ++ x :: rest) -> reads_once tb (pre ++ x :: rest) -> construct tb (pre ++ x :: rest) kw = Ok out ->
  forall c n v, In (c, n, v) out -> In c rest -> exists kw' out', construct tb rest kw' = Ok out' /\ In (c, n, v) out' /\
    (In n (kept tb x) -> dget kw' n = dget (forced x) n).
Proof.
  intros tb pre. induction pre as [|y pre IH]; intros x rest kw out ND RO H c n v I IC.
  - cbn [app] in *. cbn [construct] in H. set (kw1 := over (l_defaults (tb x)) kw) in H.
    destruct (warns x kw1); [discriminate H|].
    destruct (read_options x kw1 (l_before (tb x))) as [[o1 k1]|e] eqn:E1; [|discriminate H]. cbn [bind fst snd] in H.
    destruct (construct tb rest (over k1 (forced x))) as [r|e] eqn:E2; [|discriminate H]. cbn [bind fst snd] in H.
    destruct (read_options x (over k1 (forced x)) (l_after (tb x))) as [[o2 k2]|e] eqn:E3; [|discriminate H]. cbn [bind fst snd] in H.
    injection H as <-.
    apply NoDup_cons_iff in ND. destruct ND as [Nx ND].
    assert (RX := RO x (or_introl eq_refl)). unfold names_read in RX.
    destruct (split_nodup _ _ _ RX) as [NB [NA _]].
    destruct (reads_spec _ _ _ _ _ NB E1) as [F1 G1]. destruct (reads_spec _ _ _ _ _ NA E3) as [F3 _].
    exists (over k1 (forced x)), r. split; [exact E2|]. split.
    + apply in_app_or in I. destruct I as [I | I].
      * destruct (F2_In _ _ _ _ F1 _ _ _ I) as [-> _]. contradiction.
      * apply in_app_or in I. destruct I as [I | I]; [exact I|]. destruct (F2_In _ _ _ _ F3 _ _ _ I) as [-> _]. contradiction.
    + intro K. unfold kept in K. apply in_app_or in K. unfold over. rewrite dget_app. destruct (dget (forced x) n) eqn:D; [reflexivity|].
      destruct K as [K | K]; [|exfalso; apply dget_None in D; contradiction].
      rewrite G1. apply smem_In in K. unfold popped. rewrite K. reflexivity.
  - rewrite <- app_comm_cons in *. cbn [construct] in H. set (kw1 := over (l_defaults (tb y)) kw) in H.
    destruct (warns y kw1); [discriminate H|].
    destruct (read_options y kw1 (l_before (tb y))) as [[o1 k1]|e] eqn:E1; [|discriminate H]. cbn [bind fst snd] in H.
    destruct (construct tb (pre ++ x :: rest) (over k1 (forced y))) as [r|e] eqn:E2; [|discriminate H]. cbn [bind fst snd] in H.
    destruct (read_options y (over k1 (forced y)) (l_after (tb y))) as [[o2 k2]|e] eqn:E3; [|discriminate H]. cbn [bind fst snd] in H.
    injection H as <-.
    apply NoDup_cons_iff in ND. destruct ND as [Ny ND].
    assert (CY : c <> y) by (intros ->; apply Ny, in_or_app; right; right; exact IC).
    assert (RX := RO y (or_introl eq_refl)). unfold names_read in RX.
    destruct (split_nodup _ _ _ RX) as [NB [NA _]].
    destruct (reads_spec _ _ _ _ _ NB E1) as [F1 _]. destruct (reads_spec _ _ _ _ _ NA E3) as [F3 _].
    apply (IH x rest _ _ ND (fun c' I' => RO c' (or_intror I')) E2 c n v); [|exact IC].
    apply in_app_or in I. destruct I as [I | I].
    + destruct (F2_In _ _ _ _ F1 _ _ _ I) as [E _]. contradiction.
    + apply in_app_or in I. destruct I as [I | I]; [exact I|]. destruct (F2_In _ _ _ _ F3 _ _ _ I) as [E _]. contradiction.
Qed.

Lemma after_split : forall k mro, In k mro -> exists pre, mro = pre ++ k :: after k mro.
Proof.
  intros k mro. induction mro as [|x mro IH]; intro I; [destruct I|]. cbn [after].
  destruct (String.eqb x k) eqn:E.
  - apply String.eqb_eq in E. subst x. exists []. reflexivity.
  - destruct I as [-> | I]; [rewrite String.eqb_refl in E; discriminate E|]. destruct (IH I) as [pre P]. exists (x :: pre). cbn [app]. rewrite <- P. reflexivity.
Qed.

Lemma checked : forall mro, In mro objects ->
  NoDup mro /\ reads_once layer_of mro /\ defined layer_of mro /\
  (forall c n, In c mro -> In n (names_read (layer_of c)) ->
     hidden layer_of mro c n = overruled mro c n /\ (In n (map fst (l_after (layer_of c))) -> ~ In n (dkeys (forced c))) /\
     default layer_of mro c n = documented_default mro c n) /\
  (forall c n vs, In c mro -> neglected c = Some (n, vs) -> hidden layer_of mro c n = false /\
     forall d, before_default layer_of mro c n = Some d -> In d vs).
Proof.
  intros mro I. pose proof all_checked as A. rewrite forallb_forall in A. specialize (A mro I). unfold class_check in A.
  apply andb_prop in A. destruct A as [A _]. apply andb_prop in A. destruct A as [A1 A2]. rewrite forallb_forall in A2.
  split; [apply nodup_b_ok, A1|].
  assert (B : forall c, In c mro -> _) by (intros c J; pose proof (A2 c J) as X; cbv beta in X; apply andb_prop in X; destruct X as [X X4]; apply andb_prop in X; destruct X as [X X3];
    apply andb_prop in X; destruct X as [X1 X2]; exact (conj X1 (conj X2 (conj X3 X4)))).
  split; [|split; [|split]].
  - intros c J. destruct (B c J) as [X1 _]. apply nodup_b_ok, X1.
  - intros c n J K. destruct (B c J) as [_ [X2 _]]. rewrite forallb_forall in X2. specialize (X2 _ K). apply smem_In, X2.
  - intros c n J K. destruct (B c J) as [_ [_ [X3 _]]]. rewrite forallb_forall in X3. specialize (X3 _ K).
    apply andb_prop in X3. destruct X3 as [X3 X5]. apply andb_prop in X3. destruct X3 as [X3 X6].
    split; [apply Bool.eqb_prop, X3|]. split; [|apply eq_ov_eq, X5].
    intros L M. apply smem_In in L. apply smem_In in M. rewrite L, M in X6. discriminate X6.
  - intros c n vs J N. destruct (B c J) as [_ [_ [_ X4]]]. rewrite N in X4. apply andb_prop in X4. destruct X4 as [X4 X5].
    split; [apply negb_true_iff, X4|]. intros d D. rewrite D in X5. apply existsb_exists in X5. destruct X5 as [w [W1 W2]]. apply is_value_eq in W2. subst w. exact W1.
Qed.

Lemma nodup_right : forall (a b : list string), NoDup (a ++ b) -> NoDup b.
Proof. induction a as [|x a IH]; intros b H; [exact H|]. cbn [app] in H. apply NoDup_cons_iff in H. apply IH, H. Qed.
Lemma overruled_value : forall mro kw out k w, In mro objects -> In k mro -> (k = "RBF" /\ w = VTrue) \/ (k = "Laplacian" /\ w = VFalse) ->
  construct layer_of mro kw = Ok out -> forall v, In ("Exponential", "squared", v) out -> v = w.
Proof.
  intros mro kw out k w I IK KW H v IV. destruct (checked mro I) as [ND [RO [_ [CH _]]]].
  pose proof all_neglect as A. rewrite forallb_forall in A. specialize (A mro I). apply andb_prop in A. destruct A as [A1 A2].
  assert (NC : neglect_check k w mro = true) by (destruct KW as [[-> ->] | [-> ->]]; assumption).
  unfold neglect_check in NC. rewrite (proj2 (smem_In k mro) IK) in NC.
  apply andb_prop in NC. destruct NC as [NC N5]. apply andb_prop in NC. destruct NC as [NC N4]. apply andb_prop in NC. destruct NC as [NC N3].
  apply andb_prop in NC. destruct NC as [N1 _]. apply smem_In in N1, N3. apply negb_true_iff in N4.
  destruct (after_split k mro IK) as [pre P]. set (rest := after k mro) in *.
  rewrite P in ND, RO, H.
  destruct (suffix layer_of pre k rest kw out ND RO H "Exponential" "squared" v IV N1) as [kw' [out' [H' [I' D]]]].
  assert (NDr : NoDup rest) by (apply NoDup_remove_1, nodup_right in ND; exact ND).
  assert (ROr : reads_once layer_of rest) by (intros c J; apply RO, in_or_app; right; right; exact J).
  destruct (chain layer_of rest kw' out' NDr ROr H' _ _ _ I') as [_ [_ V]].
  assert (E : In "squared" (map fst (l_after (layer_of "Exponential"))) -> ~ In "squared" (dkeys (forced "Exponential"))) by (intros _ []).
  specialize (V N4 E). rewrite (D N3) in V. destruct (dget (forced k) "squared") as [u|].
  - apply is_value_eq in N5. injection V as ->. exact N5.
  - apply eq_ov_eq in N5. rewrite N5 in V. injection V as ->. reflexivity.
Qed.
