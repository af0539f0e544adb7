(** Proofs about the abstract methods of the classes of kerch. *)
From Verif Require Import Base Classes ClassesSpec ClassesProofs Abstract AbstractSpec.
Open Scope nat_scope.
Open Scope string_scope.
Open Scope list_scope.

Definition settled (defs abs : string -> list string) (k : klass) : Prop :=
  forall n, In n (k_abs k) <-> missing defs abs (k_mro k) n.

Lemma still_missing : forall defs abs c n, still_abstract defs abs c n = true <-> missing defs abs c n.
Proof.
  intros defs abs c n. unfold still_abstract, missing. destruct (resolve defs c n) as [d|]; split.
  - intro H. exists d. split; [reflexivity | apply smem_In; exact H].
  - intros [d' [E I]]. injection E as <-. apply smem_In. exact I.
  - intro H. discriminate H.
  - intros [d' [E _]]. discriminate E.
Qed.
Lemma instantiate_ok : forall defs abs k, settled defs abs k ->
  (instantiate k = Ok (k_mro k) /\ forall n, ~ missing defs abs (k_mro k) n) \/
  (instantiate k = Err ETypeError /\ exists n, missing defs abs (k_mro k) n).
Proof.
  intros defs abs k S. unfold instantiate. destruct (k_abs k) as [|n l] eqn:E.
  - left. split; [reflexivity|]. intros n M. apply S in M. rewrite E in M. contradiction M.
  - right. split; [reflexivity|]. exists n. apply S. rewrite E. left. reflexivity.
Qed.

(** ** Class statements *)
Lemma class_statement_mro : forall defs abs n bases k, class_statement defs abs n bases = Ok k -> derive n (map k_mro bases) = Ok (k_mro k).
Proof.
  intros defs abs n bases k H. unfold class_statement in H. destruct (derive n (map k_mro bases)) as [m|e]; [|discriminate H].
  cbn [bind] in H. injection H as <-. reflexivity.
Qed.
Lemma class_statement_some : forall defs abs n bases m, derive n (map k_mro bases) = Ok m ->
  exists k, class_statement defs abs n bases = Ok k /\ k_mro k = m.
Proof.
  intros defs abs n bases m H. unfold class_statement. rewrite H. cbn [bind]. eexists. split; reflexivity.
Qed.
Lemma class_statement_err : forall defs abs n bases e, derive n (map k_mro bases) = Err e -> class_statement defs abs n bases = Err e.
Proof. intros defs abs n bases e H. unfold class_statement. rewrite H. reflexivity. Qed.
(** What is found in a class is found in its base, when it is there. *)
Lemma resolve_subseq : forall defs a b n c, subseq a b -> NoDup b -> resolve defs b n = Some c -> In c a -> resolve defs a n = Some c.
Proof.
  intros defs a b n c H. induction H as [b|x a b H IH|x a b H IH]; intros N R I.
  - contradiction I.
  - apply NoDup_cons_iff in N. destruct N as [P N]. unfold resolve in *. simpl in *. destruct (defines defs n x) eqn:D; [exact R|].
    apply IH; [exact N | exact R |]. destruct I as [I|I]; [|exact I]. subst x.
    apply find_some in R. destruct R as [_ R]. congruence.
  - apply NoDup_cons_iff in N. destruct N as [P N]. unfold resolve in R. simpl in R. destruct (defines defs n x) eqn:D.
    + injection R as <-. exfalso. apply P. exact (subseq_In _ _ _ H _ I).
    + apply IH; assumption.
Qed.
Lemma class_statement_settled : forall defs abs n bases k,
  (forall c m, In m (abs c) -> In m (defs c)) -> (forall b, In b bases -> settled defs abs b) ->
  (forall b, In b bases -> ~ In n (k_mro b)) -> class_statement defs abs n bases = Ok k -> settled defs abs k.
Proof.
  intros defs abs n bases k MK S F H m. pose proof (class_statement_mro _ _ _ _ _ H) as D.
  unfold class_statement in H. rewrite D in H. cbn [bind] in H. injection H as <-. cbn [k_mro k_abs].
  destruct (derive_order _ _ _ D) as [l [E [ND [SB [_ ONLY]]]]]. cbn [k_mro] in E. rewrite E in *.
  rewrite in_app_iff, filter_In, still_missing. split.
  - intros [I|[_ M]]; [|exact M]. exists n. split; [|exact I].
    unfold resolve. simpl. unfold defines. rewrite (proj2 (smem_In _ _) (MK _ _ I)). reflexivity.
  - intros [d [R I]]. unfold resolve in R. simpl in R. destruct (defines defs m n) eqn:Q.
    + injection R as <-. left. exact I.
    + right. split.
      * pose proof (resolve_In _ _ _ _ R) as [J _]. apply ONLY in J. destruct J as [b [B J]].
        apply in_map_iff in B. destruct B as [kb [<- B]]. apply in_flat_map. exists kb. split; [exact B|].
        apply (S kb B). exists d. split; [|exact I]. apply (resolve_subseq defs _ l); [|exact ND|exact R|exact J].
        apply SB. apply in_map. exact B.
      * exists d. split; [|exact I]. unfold resolve. simpl. rewrite Q. exact R.
Qed.

(** ** The classes of kerch *)
Definition same_abs (k : klass) : bool :=
  forallb (fun n => Bool.eqb (smem n (k_abs k)) (still_abstract kdefs kabs (k_mro k) n)) tracked &&
  forallb (fun n => smem n tracked) (k_abs k) && forallb (fun c => smem c (dkeys bodies)) (k_mro k).
Lemma kerch_table : forallb (fun x => same_abs (snd x)) kkerch = true.
Proof. vm_compute. reflexivity. Qed.
Lemma abs_tracked : forallb (fun c => forallb (fun n => smem n tracked) (kabs c)) (dkeys bodies) = true.
Proof. vm_compute. reflexivity. Qed.
Lemma find_ext_in : forall A (f g : A -> bool) l, (forall x, In x l -> f x = g x) -> find f l = find g l.
Proof.
  intros A f g l. induction l as [|x l IH]; intro H; [reflexivity|]. simpl. rewrite (H x (or_introl eq_refl)).
  destruct (g x); [reflexivity | apply IH; intros y I; apply H; right; exact I].
Qed.
Lemma still_kerch : forall defs abs c n, program defs abs -> (forall x, In x c -> In x (dkeys bodies)) ->
  still_abstract defs abs c n = if smem n tracked then still_abstract kdefs kabs c n else false.
Proof.
  intros defs abs c n P I. destruct (smem n tracked) eqn:T.
  - apply smem_In in T. unfold still_abstract, resolve.
    rewrite (find_ext_in _ (defines defs n) (defines kdefs n) c (fun x J => p_defs _ _ P x n (I x J) T)).
    destruct (find (defines kdefs n) c) as [d|] eqn:F; [|reflexivity]. apply find_some in F. destruct F as [J _].
    rewrite (p_abs _ _ P d (I d J)). reflexivity.
  - unfold still_abstract. destruct (resolve defs c n) as [d|] eqn:R; [|reflexivity]. apply resolve_In in R. destruct R as [J _].
    apply smem_out. intro K. rewrite (p_abs _ _ P d (I d J)) in K.
    pose proof abs_tracked as A. rewrite forallb_forall in A. specialize (A d (I d J)). rewrite forallb_forall in A. specialize (A n K). congruence.
Qed.
Lemma dget_In : forall A (t : dict A) n k, dget t n = Some k -> In (n, k) t.
Proof.
  intros A t n k. induction t as [|[m v] t IH]; intro H; [discriminate H|]. simpl in H. destruct (String.eqb m n) eqn:E.
  - apply String.eqb_eq in E. injection H as <-. subst m. left. reflexivity.
  - right. exact (IH H).
Qed.
Lemma kerch_settled : forall defs abs n k, program defs abs -> dget kkerch n = Some k -> settled defs abs k.
Proof.
  intros defs abs n k P H m. apply dget_In in H. pose proof kerch_table as T. rewrite forallb_forall in T. specialize (T _ H).
  cbn [snd] in T. unfold same_abs in T. apply andb_prop in T. destruct T as [T C]. apply andb_prop in T. destruct T as [T B].
  rewrite forallb_forall in T, B, C.
  rewrite <- still_missing, (still_kerch defs abs (k_mro k) m P (fun x I => proj1 (smem_In _ _) (C x I))).
  destruct (smem m tracked) eqn:K.
  - apply smem_In in K. specialize (T m K). apply Bool.eqb_prop in T. rewrite <- T. symmetry. apply smem_In.
  - split; [|intro X; discriminate X]. intro I. specialize (B m I). cbv beta in B. congruence.
Qed.
Theorem declared_settled : forall defs abs k, program defs abs -> declared defs abs k -> settled defs abs k.
Proof.
  intros defs abs k P H. induction H as [n k H|n bases k _ IH F H].
  - exact (kerch_settled defs abs n k P H).
  - exact (class_statement_settled defs abs n bases k (p_marked _ _ P) IH F H).
Qed.
Lemma kclass_declared : forall defs abs n, In n (dkeys kkerch) -> declared defs abs (kclass_of n).
Proof.
  intros defs abs n H. unfold kclass_of. destruct (dget kkerch n) as [k|] eqn:E; [exact (of_kerch _ _ _ _ E)|].
  exfalso. unfold dkeys in H. apply in_map_iff in H. destruct H as [[m v] [Q I]]. simpl in Q. subst m.
  revert E I. generalize kkerch as t. induction t as [|[m w] t IH]; intros E I; [contradiction I|]. simpl in E.
  destruct (String.eqb m n) eqn:M; [discriminate E|]. destruct I as [I|I]; [injection I as <- _; rewrite String.eqb_refl in M; discriminate M | exact (IH E I)].
Qed.

(** ** Classes made at run time *)
Lemma distance_names : forall s, match kdistance_class (KName s) with Ok k => distance_class (DName s) = Ok (k_mro k) /\ In (hd "" (k_mro k)) (dkeys kkerch) /\ k = kclass_of (hd "" (k_mro k))
                                 | Err e => distance_class (DName s) = Err e end.
Proof.
  intro s. unfold kdistance_class, distance_class.
  repeat match goal with |- context [String.eqb s ?x] => destruct (String.eqb s x) end;
    first [reflexivity | split; [|split]; [| apply smem_In |]; vm_compute; reflexivity].
Qed.
Lemma kdistance_declared : forall defs abs d k, match d with KClass c => declared defs abs c | KName _ => True end ->
  kdistance_class d = Ok k -> declared defs abs k /\ distance_class (forget d) = Ok (k_mro k).
Proof.
  intros defs abs d k D H. destruct d as [s|c].
  - pose proof (distance_names s) as N. rewrite H in N. destruct N as [A [B C]]. split; [rewrite C; apply kclass_declared; exact B | exact A].
  - cbn [kdistance_class forget distance_class] in *. destruct (is_subclass (k_mro c) "_Distance"); [|discriminate H]. injection H as <-. split; [exact D | reflexivity].
Qed.
Lemma kdistance_err : forall d e, kdistance_class d = Err e -> distance_class (forget d) = Err e.
Proof.
  intros d e H. destruct d as [s|c].
  - pose proof (distance_names s) as N. rewrite H in N. exact N.
  - cbn [kdistance_class forget distance_class] in *. destruct (is_subclass (k_mro c) "_Distance"); [discriminate H | injection H as <-; reflexivity].
Qed.
(** The classes are those of Classes.v, and stay settled. *)
Lemma kkernel_new_spec : forall defs abs fresh K c d m, program defs abs -> settled defs abs c -> declared_distance defs abs d ->
  kernel_new fresh (k_mro K) (k_mro c) (forget_option d) = Ok m -> ~ In fresh (tail_of m) \/ m = k_mro c ->
  exists k, kkernel_new defs abs fresh K c d = Ok k /\ k_mro k = m /\ settled defs abs k.
Proof.
  intros defs abs fresh K c d m P S DD H F. unfold kernel_new, kkernel_new in *.
  destruct (is_subclass (k_mro K) "SelectDistance") eqn:SD.
  2:{ injection H as <-. exists c. split; [reflexivity | split; [reflexivity | exact S]]. }
  set (b := is_subclass (k_mro K) "RBF" || is_subclass (k_mro K) "Laplacian") in *.
  assert (Q : exists d0, match (if b then None else d) with Some d => d | None => KName "euclidean" end = d0 /\
              match (if b then None else forget_option d) with Some d => d | None => DName "euclidean" end = forget d0 /\
              match d0 with KClass c => declared defs abs c | KName _ => True end).
  { destruct b; [exists (KName "euclidean"); repeat split|]. destruct d as [d|]; [exists d; repeat split; destruct d; [exact I | exact DD]|].
    exists (KName "euclidean"). repeat split. }
  destruct Q as [d0 [Q1 [Q2 Q3]]]. cbv zeta in *. rewrite Q1. rewrite Q2 in H. unfold new_distance in H.
  destruct (kdistance_class d0) as [dc|e] eqn:E.
  2:{ rewrite (kdistance_err _ _ E) in H. discriminate H. }
  destruct (kdistance_declared defs abs d0 dc Q3 E) as [A B]. rewrite B in H. cbn [bind] in *.
  change [k_mro c; k_mro dc] with (map k_mro [c; dc]) in H.
  destruct (class_statement_some defs abs fresh [c; dc] m H) as [k [CS M]]. exists k. split; [exact CS|]. split; [exact M|].
  destruct (derive_order _ _ _ H) as [l [EL [_ [SB _]]]].
  apply (class_statement_settled defs abs fresh [c; dc] k (p_marked _ _ P)); [| |exact CS].
  - intros x [<-|[<-|[]]]; [exact S | exact (declared_settled _ _ _ P A)].
  - assert (FL : ~ In fresh l).
    { destruct F as [F|F]; [rewrite EL in F; exact F|]. subst m. exfalso.
      assert (X : subseq (k_mro c) l) by (apply SB; left; reflexivity). rewrite EL in X.
      assert (LE : forall (a b : list string), subseq a b -> List.length a <= List.length b).
      { clear. intros a b H. induction H; simpl; lia. }
      apply LE in X. simpl in X. lia. }
    intros x I J. apply FL. apply (subseq_In _ (k_mro x) l); [apply SB; apply in_map; exact I | exact J].
Qed.
Lemma knew_view_spec : forall defs abs fresh L K m, program defs abs -> settled defs abs L -> settled defs abs K ->
  new_view fresh (k_mro L) (k_mro K) = Ok m -> ~ In fresh (tail_of m) ->
  exists k, knew_view defs abs fresh L K = Ok k /\ k_mro k = m /\ settled defs abs k.
Proof.
  intros defs abs fresh L K m P SL SK H F. unfold new_view, knew_view in *. destruct (is_subclass (k_mro K) "Kernel"); [|discriminate H].
  change [k_mro L; k_mro K] with (map k_mro [L; K]) in H.
  destruct (class_statement_some defs abs fresh [L; K] m H) as [k [CS M]]. exists k. split; [exact CS|]. split; [exact M|].
  destruct (derive_order _ _ _ H) as [l [EL [_ [SB _]]]]. rewrite EL in F. cbn [tail_of] in F.
  apply (class_statement_settled defs abs fresh [L; K] k (p_marked _ _ P)); [| |exact CS].
  - intros x [<-|[<-|[]]]; assumption.
  - intros x I J. apply F. apply (subseq_In _ (k_mro x) l); [apply SB; apply in_map; exact I | exact J].
Qed.

Section Levels.
Variables (defs abs : string -> list string) (f1 f2 f3 : string) (L K : klass) (d : option kdistance) (lv own : list string).
Hypothesis P : program defs abs.
Hypothesis DL : declared defs abs L.
Hypothesis DK : declared defs abs K.
Hypothesis DD : declared_distance defs abs d.
Hypothesis ML : k_mro L = level_class lv.
Hypothesis OWN : own_classes (k_mro K) (forget_option d) own.
Hypothesis N : NoDup (f1 :: f2 :: f3 :: lv ++ "View" :: own ++ below_view).

Lemma nodups : NoDup (own ++ below_view) /\ ~ In f3 (own ++ below_view) /\ NoDup (f1 :: lv ++ "View" :: own ++ below_view) /\
  ~ In f2 (f1 :: lv ++ "View" :: own ++ below_view) /\ NoDup (f1 :: f2 :: lv ++ "View" :: own ++ below_view).
Proof.
  pose proof N as M. apply NoDup_cons_iff in M. destruct M as [N1 M]. apply NoDup_cons_iff in M. destruct M as [N2 M].
  apply NoDup_cons_iff in M. destruct M as [N3 M].
  assert (A1 : ~ In f1 (lv ++ "View" :: own ++ below_view)) by (intro I; apply N1; right; right; exact I).
  assert (A2 : ~ In f2 (lv ++ "View" :: own ++ below_view)) by (intro I; apply N2; right; exact I).
  assert (A12 : f1 <> f2) by (intro E; apply N1; left; symmetry; exact E).
  split; [|split; [|split; [|split]]].
  - destruct (nodup_split _ _ _ M) as [_ [Q _]]. apply NoDup_cons_iff in Q. exact (proj2 Q).
  - intro I. apply N3. apply in_or_app. right. right. exact I.
  - constructor; assumption.
  - intros [I|I]; [exact (A12 I) | exact (A2 I)].
  - constructor; [intros [I|I]; [exact (A12 (eq_sym I)) | exact (A1 I)] | constructor; assumption].
Qed.
Lemma kernel_klass : exists k, kkernel_new defs abs f3 K K d = Ok k /\ kernel_object f3 (k_mro K) (forget_option d) = Ok (k_mro k) /\ settled defs abs k.
Proof.
  destruct nodups as [NO [F3 _]]. pose proof (kernel_object_order f3 (k_mro K) (forget_option d) own OWN NO) as O.
  destruct (kkernel_new_spec defs abs f3 K K d _ P (declared_settled _ _ _ P DK) DD O) as [k [A [B C]]].
  - unfold made. destruct (is_subclass (k_mro K) "SelectDistance") eqn:S.
    + left. cbn [app tail_of]. intro I. apply F3. apply in_app_or in I. apply in_or_app. destruct I as [I|I]; [left; exact I | right; exact (kernel_in_view _ I)].
    + right. cbn [app]. destruct OWN as [pre dd PR SD|pre dd dist DI E]; [reflexivity|]. rewrite is_distance in S. discriminate S.
  - exists k. split; [exact A|]. split; [rewrite B; exact O | exact C].
Qed.
Lemma level_klass : exists k c, knew_view defs abs f1 L K = Ok c /\ kkernel_new defs abs f2 K c d = Ok k /\
  level_object f1 f2 (level_class lv) (k_mro K) (forget_option d) = Ok (k_mro k) /\ settled defs abs k.
Proof.
  destruct nodups as [_ [_ [N1 [F2 _]]]].
  pose proof (level_object_order f1 f2 lv (k_mro K) (forget_option d) own OWN N1) as O.
  unfold level_object in O. destruct (new_view f1 (level_class lv) (k_mro K)) as [m|e] eqn:NV; [|discriminate O]. cbn [bind] in O.
  rewrite <- ML in NV.
  assert (T : forall x, In x (k_mro L) \/ In x (k_mro K) -> In x (lv ++ "View" :: own ++ below_view)).
  { intros x [I|I].
    - rewrite ML in I. unfold level_class in I. apply in_app_or in I. apply in_or_app. destruct I as [I|[I|I]]; [left; exact I | right; left; exact I|].
      right. right. apply in_or_app. right. exact I.
    - apply in_or_app. right. right. apply in_or_app. destruct OWN as [pre dd PR SD|pre dd dist DI E].
      + unfold kernel_class in I. apply in_app_or in I. destruct I as [I|I]; [left; exact I | right; exact (kernel_in_view _ I)].
      + unfold distance_kernel in I. apply in_app_or in I. destruct I as [I|[I|[I|[I|I]]]]; [left; apply in_or_app; left; exact I | | | | right; exact (kernel_in_view _ I)];
          left; apply in_or_app; right; [left; exact I | right; apply in_or_app; right; left; exact I | right; apply in_or_app; right; right; left; exact I]. }
  assert (F1 : ~ In f1 (tail_of m)).
  { unfold new_view in NV. destruct (is_subclass (k_mro K) "Kernel"); [|discriminate NV].
    destruct (derive_order _ _ _ NV) as [l [EL [_ [_ [_ ONLY]]]]]. subst m. cbn [tail_of]. intro I. apply ONLY in I.
    destruct I as [b [B J]]. apply NoDup_cons_iff in N1. apply (proj1 N1). apply T.
    destruct B as [<-|[<-|[]]]; [left; exact J | right; exact J]. }
  destruct (knew_view_spec defs abs f1 L K m P (declared_settled _ _ _ P DL) (declared_settled _ _ _ P DK) NV F1) as [c [A [B C]]].
  subst m.
  destruct (kkernel_new_spec defs abs f2 K c d _ P C DD O) as [k [A' [B' C']]].
  - unfold made. destruct (is_subclass (k_mro K) "SelectDistance") eqn:S; [left; exact F2|].
    right. cbn [app]. unfold kernel_new in O. rewrite S in O. injection O as O. unfold made in O. rewrite S in O. symmetry. exact O.
  - exists k, c. split; [exact A|]. split; [exact A'|]. split; [|exact C'].
    unfold level_object. rewrite <- ML, NV. cbn [bind]. rewrite O, B'. reflexivity.
Qed.

Hypothesis B1 : same_body defs abs f1 (hd "View" lv).
Hypothesis B2 : same_body defs abs f2 (hd "View" lv).
Hypothesis B3 : same_body defs abs f3 (hd "" (k_mro K)).

(** What a level misses: what its own classes miss, or what its kernel or [_View] miss. *)
Lemma level_misses : forall k n, level_object f1 f2 (level_class lv) (k_mro K) (forget_option d) = Ok (k_mro k) ->
  (missing defs abs (k_mro k) n <->
   exists c, match resolve defs (lv ++ ["View"]) n with Some c' => Some c' | None => resolve_super defs (k_mro k) "View" n end = Some c /\ In n (abs c)).
Proof.
  intros k n LO. destruct nodups as [_ [_ [_ [_ N12]]]].
  assert (E : forall f, f = f1 \/ f = f2 -> defs f = defs (hd "View" lv)) by (intros f [->| ->]; [exact (proj1 B1) | exact (proj1 B2)]).
  rewrite <- (level_first f1 f2 lv (k_mro K) (forget_option d) own (k_mro k) defs n OWN N12 LO E).
  unfold missing, found.
  assert (AB : forall c, abs (copies_of [(f1, hd "View" lv); (f2, hd "View" lv)] c) = abs c).
  { intro c. unfold copies_of. simpl. destruct (String.eqb f1 c) eqn:E1; [apply String.eqb_eq in E1; subst c; symmetry; exact (proj2 B1)|].
    destruct (String.eqb f2 c) eqn:E2; [apply String.eqb_eq in E2; subst c; symmetry; exact (proj2 B2) | reflexivity]. }
  split.
  - intros [c [R I]]. rewrite R. cbn [option_map]. exists (copies_of [(f1, hd "View" lv); (f2, hd "View" lv)] c). split; [reflexivity | rewrite AB; exact I].
  - intros [c [R I]]. destruct (resolve defs (k_mro k) n) as [c'|]; [|discriminate R]. injection R as <-. rewrite AB in I. exists c'. split; [reflexivity | exact I].
Qed.
Lemma kernel_misses : forall k n c, kernel_object f3 (k_mro K) (forget_option d) = Ok (k_mro k) ->
  found [(f3, hd "" (k_mro K))] defs (k_mro k) n = Some c -> In n (abs c) -> missing defs abs (k_mro k) n.
Proof.
  intros k n c KO F I. unfold found in F. destruct (resolve defs (k_mro k) n) as [c'|] eqn:R; [|discriminate F]. injection F as <-.
  exists c'. split; [exact R|]. unfold copies_of in I. simpl in I.
  destruct (String.eqb f3 c') eqn:E; [|exact I]. apply String.eqb_eq in E. subst c'. rewrite (proj2 B3). exact I.
Qed.

Theorem kernel_then_level : complete defs abs lv -> is_ok (create_kernel defs abs f3 K d) = true -> is_ok (create_level defs abs f1 f2 L K d) = true.
Proof.
  intros [C1 C2] OK. destruct kernel_klass as [kk [KN [KO KS]]]. destruct level_klass as [k [c [NV [KL [LO LS]]]]].
  unfold create_kernel in OK. rewrite KN in OK. cbn [bind] in OK.
  unfold create_level. rewrite NV. cbn [bind]. rewrite KL. cbn [bind].
  destruct (instantiate_ok defs abs kk KS) as [[_ KM]|[KE _]]; [|rewrite KE in OK; discriminate OK].
  destruct (instantiate_ok defs abs k LS) as [[-> _]|[_ [n M]]]; [reflexivity|]. exfalso.
  apply (proj1 (level_misses k n LO)) in M. destruct M as [x [R I]].
  destruct (resolve defs (lv ++ ["View"]) n) as [y|] eqn:RL.
  - injection R as ->. apply (C1 n). exists x. split; [exact RL | exact I].
  - rewrite (kernel_of_level f1 f2 f3 lv (k_mro K) (forget_option d) own (k_mro k) (k_mro kk) defs n OWN N LO KO (proj1 B3)) in R.
    assert (V : ~ In n (abs "_View")) by (intro V; destruct (C2 n V) as [z Z]; rewrite RL in Z; discriminate Z).
    destruct (found [(f3, hd "" (k_mro K))] defs (k_mro kk) n) as [z|] eqn:FK.
    + destruct (smem z below_sample && defines defs n "_View").
      * injection R as <-. exact (V I).
      * injection R as ->. exact (KM n (kernel_misses kk n x KO FK I)).
    + destruct (defines defs n "_View"); [injection R as <-; exact (V I) | discriminate R].
Qed.

(** What [_View] declares must be implemented by the level, or by the kernel classes. *)
Theorem level_without : forall n, In n (abs "_View") ->
  resolve defs (lv ++ "View" :: own ++ ["Kernel"; "_BaseKernel"]) n = None -> create_level defs abs f1 f2 L K d = Err ETypeError.
Proof.
  intros n V R. destruct level_klass as [k [c [NV [KL [LO LS]]]]]. destruct kernel_klass as [kk [_ [KO _]]].
  unfold create_level. rewrite NV. cbn [bind]. rewrite KL. cbn [bind].
  destruct (instantiate_ok defs abs k LS) as [[_ KM]|[KE _]]; [|exact KE]. exfalso. apply (KM n).
  apply (proj2 (level_misses k n LO)). exists "_View". split; [|exact V].
  replace (lv ++ "View" :: own ++ ["Kernel"; "_BaseKernel"]) with ((lv ++ ["View"]) ++ own ++ ["Kernel"; "_BaseKernel"]) in R by (rewrite <- app_assoc; reflexivity).
  rewrite resolve_app in R. destruct (resolve defs (lv ++ ["View"]) n) as [x|]; [discriminate R|].
  destruct nodups as [NO [F3 [N1 _]]].
  rewrite (kernel_of_level f1 f2 f3 lv (k_mro K) (forget_option d) own (k_mro k) (k_mro kk) defs n OWN N LO KO (proj1 B3)).
  rewrite (found_kernel f3 (k_mro K) (forget_option d) own (k_mro kk) defs n OWN NO F3 KO (proj1 B3)).
  assert (DV : defines defs n "_View" = true) by (unfold defines; apply smem_In; apply (p_marked _ _ P); exact V). rewrite DV.
  replace (own ++ below_kernel) with ((own ++ ["Kernel"; "_BaseKernel"]) ++ below_sample) by (rewrite <- app_assoc; reflexivity).
  rewrite resolve_app, R. destruct (resolve defs below_sample n) as [y|] eqn:Y; [|reflexivity].
  apply resolve_In in Y. destruct Y as [Y _]. apply smem_In in Y. rewrite Y. reflexivity.
Qed.
End Levels.

(** The levels of kerch. *)
Lemma in_kerch : forall l, forallb (fun c => smem c (dkeys bodies)) l = true -> forall x, In x l -> In x (dkeys bodies).
Proof. intros l H x I. rewrite forallb_forall in H. apply smem_In. exact (H x I). Qed.
Definition complete_b (lv : list string) : bool :=
  forallb (fun n => negb (still_abstract kdefs kabs (lv ++ ["View"]) n)) tracked &&
  forallb (fun n => match resolve kdefs (lv ++ ["View"]) n with Some _ => true | None => false end) (kabs "_View").
Lemma complete_sound : forall defs abs lv, program defs abs -> forallb (fun c => smem c (dkeys bodies)) (lv ++ ["View"]) = true ->
  complete_b lv = true -> complete defs abs lv.
Proof.
  intros defs abs lv P I H. apply andb_prop in H. destruct H as [A B]. rewrite forallb_forall in A, B. split.
  - intros n M. apply still_missing in M. rewrite (still_kerch defs abs _ n P (in_kerch _ I)) in M.
    destruct (smem n tracked) eqn:T; [|discriminate M]. apply smem_In in T. specialize (A n T). cbv beta in A. rewrite M in A. discriminate A.
  - intros n V. rewrite (p_abs _ _ P "_View") in V by (apply smem_In; vm_compute; reflexivity). specialize (B n V). cbv beta in B.
    assert (T : In n tracked).
    { pose proof abs_tracked as Q. rewrite forallb_forall in Q. specialize (Q "_View" (proj1 (smem_In "_View" (dkeys bodies)) eq_refl)).
      rewrite forallb_forall in Q. apply smem_In. exact (Q n V). }
    unfold resolve in *.
    rewrite (find_ext_in _ (defines defs n) (defines kdefs n) (lv ++ ["View"]) (fun x J => p_defs _ _ P x n (in_kerch _ I x J) T)).
    destruct (find (defines kdefs n) (lv ++ ["View"])) as [c|]; [exists c; reflexivity | discriminate B].
Qed.
Lemma kerch_complete : forall defs abs n lv, program defs abs -> In n ["KPCA"; "LSSVM"; "Ridge"] -> cls_of n = level_class lv -> complete defs abs lv.
Proof.
  intros defs abs n lv P I E.
  assert (Q : exists lv', cls_of n = level_class lv' /\ forallb (fun c => smem c (dkeys bodies)) (lv' ++ ["View"]) = true /\ complete_b lv' = true).
  { destruct I as [<-|[<-|[<-|[]]]].
    - exists ["KPCA"; "_KPCA"; "Level"; "_Level"]. vm_compute. repeat split.
    - exists ["LSSVM"; "Level"; "_Level"]. vm_compute. repeat split.
    - exists ["Ridge"; "LSSVM"; "Level"; "_Level"]. vm_compute. repeat split. }
  destruct Q as [lv' [E' [A B]]]. rewrite E in E'. unfold level_class in E'. apply app_inv_tail in E'. subst lv'.
  exact (complete_sound defs abs lv P A B).
Qed.

Lemma left_exactly : forall defs abs l ms n, program defs abs -> In (l, ms) left_to_do ->
  (missing defs abs (cls_of l) n <-> In n ms).
Proof.
  intros defs abs l ms n P I.
  assert (T : forallb (fun x => smem (fst x) (dkeys kkerch) && (if list_eq_dec string_dec (k_mro (kclass_of (fst x))) (cls_of (fst x)) then true else false) &&
                forallb (fun m => smem m (snd x)) (k_abs (kclass_of (fst x))) && forallb (fun m => smem m (k_abs (kclass_of (fst x)))) (snd x)) left_to_do = true)
    by (vm_compute; reflexivity).
  rewrite forallb_forall in T. specialize (T _ I). cbn [fst snd] in T.
  apply andb_prop in T. destruct T as [T T4]. apply andb_prop in T. destruct T as [T T3]. apply andb_prop in T. destruct T as [T1 T2].
  destruct (list_eq_dec string_dec (k_mro (kclass_of l)) (cls_of l)) as [E|E]; [|discriminate T2].
  rewrite <- E. rewrite <- (declared_settled defs abs _ P (kclass_declared _ _ _ (proj1 (smem_In _ _) T1)) n).
  rewrite forallb_forall in T3, T4. split; intro J; apply smem_In; [apply T3 | apply T4]; exact J.
Qed.
