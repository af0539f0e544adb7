(** Hyperparameters that are reported: proofs. *)
From Verif Require Import Base BaseProofs Classes ClassesSpec ClassesProofs Hparams HparamsSpec.
Open Scope nat_scope.
Open Scope string_scope.
Open Scope list_scope.

Lemma last_source_from : forall es k r,
  fold_left (fun r e => if String.eqb (fst e) k then Some (snd e) else r) es r =
  match last_source es k with Some s => Some s | None => r end.
Proof.
  induction es as [|[x s] es IH]; intros k r; [reflexivity|]. unfold last_source. simpl. rewrite IH.
  destruct (String.eqb x k); rewrite (IH k); [|destruct (last_source es k); reflexivity].
  destruct (last_source es k); reflexivity.
Qed.
Lemma last_source_app : forall a b k, last_source (a ++ b) k = match last_source b k with Some s => Some s | None => last_source a k end.
Proof. intros a b k. unfold last_source. rewrite fold_left_app. apply last_source_from. Qed.
Lemma last_source_cons : forall e es k, last_source (e :: es) k = match last_source es k with Some s => Some s | None => if String.eqb (fst e) k then Some (snd e) else None end.
Proof. intros e es k. change (e :: es) with ([e] ++ es). rewrite last_source_app. reflexivity. Qed.
Lemma last_source_In : forall es k s, last_source es k = Some s -> In (k, s) es.
Proof.
  induction es as [|[x y] es IH]; intros k s H; [discriminate H|]. rewrite last_source_cons in H.
  destruct (last_source es k) as [z|] eqn:E.
  - injection H as <-. right. apply IH. exact E.
  - simpl in H. destruct (String.eqb x k) eqn:X; [|discriminate H]. apply String.eqb_eq in X. injection H as <-. subst x. left; reflexivity.
Qed.
Lemma last_source_None : forall es k, last_source es k = None <-> ~ In k (map fst es).
Proof.
  induction es as [|[x y] es IH]; intro k; [split; [intros _ [] | reflexivity]|]. rewrite last_source_cons. simpl.
  destruct (last_source es k) as [z|] eqn:E.
  - split; [discriminate|]. intro N. exfalso. apply N. right. apply last_source_In in E. apply (in_map fst) in E. exact E.
  - apply IH in E. destruct (String.eqb x k) eqn:X.
    + apply String.eqb_eq in X. split; [discriminate | intro N; exfalso; apply N; left; exact X].
    + apply String.eqb_neq in X. split; [intros _ [H|H]; [exact (X H) | exact (E H)] | reflexivity].
Qed.

Section Proofs.
Context {V : Type}.
Variable tbl : which -> string -> option listing.
Variable read : string -> result V.

Fixpoint first_error (es : list (string * source)) : option exn :=
  match es with
  | [] => None
  | (_, s) :: es' => match read_source read s with Err x => Some x | Ok _ => first_error es' end
  end.
Lemma first_error_app : forall a b, first_error (a ++ b) = match first_error a with Some x => Some x | None => first_error b end.
Proof. induction a as [|[k s] a IH]; intro b; [reflexivity|]. simpl. destruct (read_source read s); [apply IH | reflexivity]. Qed.
Lemma first_error_readable : forall es, first_error es = None <-> readable read es.
Proof.
  induction es as [|[k s] es IH]; [split; [intros _ k a [] | reflexivity]|]. simpl. split.
  - intros H k' a I. destruct s as [n|b]; simpl in H.
    + destruct I as [I|I]; [discriminate I | exact (proj1 IH H k' a I)].
    + destruct (read b) as [v|x] eqn:R; simpl in H; [|discriminate H].
      destruct I as [I|I]; [injection I as _ <-; rewrite R; reflexivity | exact (proj1 IH H k' a I)].
  - intro H. assert (T : first_error es = None) by (apply IH; intros k' a I; apply (H k' a); right; exact I).
    destruct s as [n|b]; simpl; [exact T|]. specialize (H k b (or_introl eq_refl)). destruct (read b); [exact T | discriminate H].
Qed.

(** What a dictionary holds, for the entries [es] written in this order over the dictionary [d0]. *)
Definition holds (d d0 : dict (hval V)) (es : list (string * source)) : Prop :=
  forall k, match last_source es k with
            | None => dget d k = dget d0 k
            | Some s => exists v, read_source read s = Ok v /\ dget d k = Some v
            end.
Lemma own_entries_spec : forall es d, NoDup (dkeys d) ->
  match own_entries read es d with
  | Err x => first_error es = Some x
  | Ok d' => first_error es = None /\ NoDup (dkeys d') /\ holds d' d es
  end.
Proof.
  induction es as [|[k s] es IH]; intros d ND; simpl.
  - split; [reflexivity|]. split; [exact ND|]. intro k. reflexivity.
  - destruct (read_source read s) as [v|x] eqn:R; simpl; [|reflexivity].
    specialize (IH (dset d k v) (NoDup_dset d k v ND)). destruct (own_entries read es (dset d k v)) as [d'|x]; [|exact IH].
    destruct IH as [F [N H]]. split; [exact F|]. split; [exact N|]. intro k'. specialize (H k'). rewrite last_source_cons.
    destruct (last_source es k') as [s'|]; [exact H|]. simpl. destruct (String.eqb k k') eqn:E.
    + apply String.eqb_eq in E. subst k'. exists v. split; [exact R|]. rewrite H. apply dset_get_same.
    + rewrite H. apply dset_get_other. apply String.eqb_neq in E. congruence.
Qed.
Lemma unpack_spec : forall (r d : dict (hval V)), NoDup (dkeys r) -> NoDup (dkeys d) ->
  NoDup (dkeys (unpack d r)) /\ forall k, dget (unpack d r) k = match dget r k with Some v => Some v | None => dget d k end.
Proof.
  induction r as [|[x v] r IH]; intros d NR ND; [split; [exact ND | reflexivity]|].
  simpl in NR. apply NoDup_cons_iff in NR. destruct NR as [NI NR].
  destruct (IH (dset d x v) NR (NoDup_dset d x v ND)) as [A B]. change (unpack d ((x, v) :: r)) with (unpack (dset d x v) r).
  split; [exact A|]. intro k. rewrite B. simpl. destruct (String.eqb x k) eqn:E.
  - apply String.eqb_eq in E. subst k. replace (dget r x) with (@None (hval V)); [apply dset_get_same | symmetry; apply dget_None; exact NI].
  - destruct (dget r k); [reflexivity|]. apply dset_get_other. apply String.eqb_neq in E. congruence.
Qed.
Theorem hparams_spec : forall l skip w, let '(es, e) := chain tbl skip l w in
  match hparams tbl read skip l w with
  | Ok (ADict d) => e = End_ok /\ first_error es = None /\ NoDup (dkeys d) /\ holds d [] es
  | Ok AMethod => e = End_method /\ es = []
  | Err x => first_error es = Some x \/ (first_error es = None /\ e = End_error x)
  end.
Proof.
  induction l as [|c l IH]; intros skip w; [right; split; reflexivity|]. cbn [chain hparams].
  destruct skip as [s|]; [destruct (String.eqb c s); apply IH|].
  destruct (tbl w c) as [[p own sup]|]; [|apply IH]. destruct p; [|split; reflexivity].
  pose proof (own_entries_spec own [] (NoDup_nil _)) as O.
  destruct sup as [[s w']|].
  - specialize (IH (if String.eqb c s then None else Some s) w').
    destruct (chain tbl (if String.eqb c s then None else Some s) l w') as [es e].
    destruct (own_entries read own []) as [d|x]; cbn [bind].
    + destruct O as [F [N H]]. rewrite first_error_app, F.
      destruct (hparams tbl read (if String.eqb c s then None else Some s) l w') as [[r|]|x]; cbn [bind].
      * destruct IH as [E [F2 [N2 H2]]]. subst e. split; [reflexivity|]. split; [exact F2|].
        destruct (unpack_spec r d N2 N) as [A B]. split; [exact A|]. intro k. rewrite last_source_app.
        specialize (H2 k). specialize (H k). rewrite B. destruct (last_source es k) as [s2|].
        -- destruct H2 as [v [R G]]. exists v. split; [exact R|]. rewrite G. reflexivity.
        -- rewrite H2. cbn [dget]. exact H.
      * destruct IH as [E X]. subst e es. right. split; reflexivity.
      * destruct IH as [IH|[IH E]]; [left; exact IH | right; split; [exact IH | subst e; reflexivity]].
    + left. rewrite first_error_app, O. reflexivity.
  - destruct (own_entries read own []) as [d|x]; cbn [bind]; [|left; exact O].
    destruct O as [F [N H]]. repeat split; assumption.
Qed.
Lemma hparams_ok : forall l w d, hparams tbl read None l w = Ok (ADict d) -> snd (chain tbl None l w) = End_ok /\ readable read (fst (chain tbl None l w)) /\ holds d [] (fst (chain tbl None l w)).
Proof.
  intros l w d H. pose proof (hparams_spec l None w) as S. destruct (chain tbl None l w) as [es e]. rewrite H in S.
  destruct S as [E [F [_ K]]]. split; [exact E|]. split; [apply first_error_readable; exact F | exact K].
Qed.
Lemma hparams_when : forall l w, (exists d, hparams tbl read None l w = Ok (ADict d)) <->
  snd (chain tbl None l w) = End_ok /\ readable read (fst (chain tbl None l w)).
Proof.
  intros l w. pose proof (hparams_spec l None w) as S. destruct (chain tbl None l w) as [es e]. cbn [fst snd].
  destruct (hparams tbl read None l w) as [[d|]|x]; split.
  - intros _. split; [exact (proj1 S) | apply first_error_readable; exact (proj1 (proj2 S))].
  - intros _. exists d. reflexivity.
  - intros [d H]. discriminate H.
  - intros [E _]. destruct S as [S _]. rewrite S in E. discriminate E.
  - intros [d H]. discriminate H.
  - intros [E R]. apply first_error_readable in R. destruct S as [S|[_ S]]; [congruence | rewrite S in E; discriminate E].
Qed.
End Proofs.

(** Classes that do not count. *)
Lemma table_supers : forall fs w c p own s w', kerch_table fs w c = Some (Listing p own (Some (s, w'))) -> relevant s = true.
Proof.
  intros fs w c p own s w' H. unfold kerch_table in H. apply dget_In in H.
  assert (A : forallb (fun e : string * listing => match l_super (snd e) with Some (s, _) => relevant s | None => true end) (fixed_table ++ variable_table) = true) by (vm_compute; reflexivity).
  rewrite forallb_forall in A. destruct w; specialize (A _ (in_or_app _ _ _ (or_introl H))) || specialize (A _ (in_or_app _ _ _ (or_intror H))); exact A.
Qed.
Lemma table_relevant : forall w c l, kerch_table [] w c = Some l -> relevant c = true.
Proof.
  intros w c l H. unfold kerch_table in H. cbn [dget] in H. apply dget_In in H. apply (in_map fst) in H. cbn [fst] in H.
  unfold relevant. apply smem_In in H. destruct w; rewrite H; [reflexivity | rewrite orb_true_r; reflexivity].
Qed.
(** [fs] only gives classes that do not count themselves, and that are made from classes that do not count. *)
Lemma chain_filter : forall fs sel, (forall w c l, kerch_table fs w c = Some l -> sel c = true) -> (forall c, relevant c = true -> sel c = true) ->
  forall l skip w, (forall s, skip = Some s -> sel s = true) ->
  chain (kerch_table fs) skip l w = chain (kerch_table fs) skip (filter sel l) w.
Proof.
  intros fs sel T R. induction l as [|c l IH]; intros skip w S; [reflexivity|]. cbn [filter].
  destruct (sel c) eqn:C.
  - cbn [chain]. destruct skip as [s|].
    + destruct (String.eqb c s); apply IH; [discriminate | exact S].
    + destruct (kerch_table fs w c) as [[p own sup]|] eqn:K; [|apply IH; discriminate].
      destruct p; [|reflexivity]. destruct sup as [[s w']|]; [|reflexivity].
      rewrite (IH (if String.eqb c s then None else Some s) w'); [reflexivity|].
      intros s' E. destruct (String.eqb c s); [discriminate E|]. injection E as <-. apply R. exact (table_supers _ _ _ _ _ _ _ K).
  - cbn [chain]. destruct skip as [s|].
    + destruct (String.eqb c s) eqn:E; [apply String.eqb_eq in E; subst s; rewrite (S c eq_refl) in C; discriminate C | apply IH; exact S].
    + destruct (kerch_table fs w c) as [x|] eqn:K; [rewrite (T w c x K) in C; discriminate C | apply IH; discriminate].
Qed.
Lemma chain_counted : forall l w, chain (kerch_table []) None l w = chain (kerch_table []) None (filter relevant l) w.
Proof. intros l w. apply (chain_filter [] relevant); [exact table_relevant | intros c H; exact H | discriminate]. Qed.

Lemma chain_ext : forall t1 t2 l skip w, (forall w c, In c l -> t1 w c = t2 w c) -> chain t1 skip l w = chain t2 skip l w.
Proof.
  intros t1 t2. induction l as [|c l IH]; intros skip w H; [reflexivity|]. cbn [chain].
  assert (H' : forall w c, In c l -> t1 w c = t2 w c) by (intros w' c' I; apply H; right; exact I).
  destruct skip as [s|]; [destruct (String.eqb c s); apply IH; exact H'|].
  rewrite (H w c (or_introl eq_refl)). destruct (t2 w c) as [[p own sup]|]; [|apply IH; exact H'].
  destruct p; [|reflexivity]. destruct sup as [[s w']|]; [|reflexivity]. rewrite (IH _ w' H'). reflexivity.
Qed.
Lemma chain_made : forall tbl f x l w, (forall w, tbl w f = tbl w x) -> (forall w p own s w', tbl w f = Some (Listing p own (Some (s, w'))) -> f <> s) ->
  chain tbl None (f :: x :: l) w = chain tbl None (x :: l) w.
Proof.
  intros tbl f x l w E N. cbn [chain]. pose proof (N w) as N'. rewrite (E w) in *. destruct (tbl w x) as [[p own sup]|]; [|reflexivity].
  destruct p; [|reflexivity]. destruct sup as [[s w']|]; [|reflexivity].
  specialize (N' true own s w' eq_refl). apply String.eqb_neq in N'. rewrite N'. destruct (String.eqb x s); reflexivity.
Qed.
Lemma table_other : forall fs w c, ~ In c (map fst fs) -> kerch_table fs w c = kerch_table [] w c.
Proof.
  intros fs w c N. unfold kerch_table. replace (dget fs c) with (@None string); [reflexivity|]. symmetry. apply dget_None. exact N.
Qed.
Theorem kernel_chain : forall f k d own obj w, own_classes k d own -> NoDup (f :: own ++ below_view) -> relevant f = false ->
  kernel_object f k d = Ok obj ->
  chain (kerch_table [(f, hd "" k)]) None obj w = chain (kerch_table []) None (filter relevant (own ++ below_kernel)) w.
Proof.
  intros f k d own obj w H N R K. rewrite <- chain_counted.
  apply NoDup_cons_iff in N. destruct N as [NF N]. rewrite (kernel_object_order f k d own H N) in K. injection K as <-.
  assert (E : chain (kerch_table [(f, hd "" k)]) None (own ++ below_kernel) w = chain (kerch_table []) None (own ++ below_kernel) w).
  { apply chain_ext. intros w' c I. apply table_other. intros [J|[]]. cbn [fst] in J. subst c. apply NF.
    apply in_app_or in I. apply in_or_app. destruct I as [I|I]; [left; exact I|]. right.
    unfold below_kernel in I. unfold below_view. cbn [In] in I |- *. intuition. }
  unfold made. destruct (is_subclass k "SelectDistance") eqn:S; [|exact E]. cbn [app].
  assert (HD : exists x l, own ++ below_kernel = x :: l /\ hd "" k = x).
  { destruct H as [pre d P Q|pre d dist P Q].
    - destruct pre as [|x pre]; [contradiction P; reflexivity|]. exists x. exists (pre ++ below_kernel). split; reflexivity.
    - destruct pre as [|x pre].
      + exists "SelectDistance". exists ((dist ++ ["_Distance"; "Implicit"]) ++ below_kernel). split; reflexivity.
      + exists x. exists ((pre ++ "SelectDistance" :: dist ++ ["_Distance"; "Implicit"]) ++ below_kernel). split; reflexivity. }
  destruct HD as [x [l [EX HX]]]. rewrite EX in *. rewrite HX in *.
  assert (NX : f <> x) by (intro; subst f; apply NF; destruct own as [|y own]; cbn [app] in *;
     [unfold below_kernel in EX; injection EX as <- _; left; reflexivity | injection EX as -> _; left; reflexivity]).
  rewrite chain_made; [exact E | |].
  - intro w'. unfold kerch_table. cbn [dget]. rewrite String.eqb_refl.
    destruct (String.eqb f x) eqn:Q; reflexivity.
  - intros w' p o s w2 T J. subst s. apply table_supers in T. congruence.
Qed.
Theorem level_chain : forall f1 f2 lv k d own obj w, own_classes k d own -> NoDup (f1 :: f2 :: lv ++ "View" :: own ++ below_view) ->
  relevant f1 = false -> relevant f2 = false -> level_object f1 f2 (level_class lv) k d = Ok obj ->
  chain (kerch_table [(f1, hd "View" lv); (f2, hd "View" lv)]) None obj w = chain (kerch_table []) None (filter relevant (lv ++ own ++ below_view)) w.
Proof.
  intros f1 f2 lv k d own obj w H N R1 R2 L.
  assert (N1 : NoDup (f1 :: lv ++ "View" :: own ++ below_view)).
  { apply NoDup_cons_iff in N. destruct N as [A B]. apply NoDup_cons_iff in B. destruct B as [B C].
    apply NoDup_cons; [intro I; apply A; right; exact I | exact C]. }
  rewrite (level_object_order f1 f2 lv k d own H N1) in L. injection L as <-.
  set (fs := [(f1, hd "View" lv); (f2, hd "View" lv)]). set (l := lv ++ "View" :: own ++ below_view).
  assert (F1 : ~ In f1 l) by (apply NoDup_cons_iff in N1; exact (proj1 N1)).
  assert (F2 : ~ In f2 l).
  { apply NoDup_cons_iff in N. destruct N as [_ B]. apply NoDup_cons_iff in B. exact (proj1 B). }
  assert (F12 : f1 <> f2) by (apply NoDup_cons_iff in N; destruct N as [A _]; intro; subst f2; apply A; left; reflexivity).
  assert (E : chain (kerch_table fs) None l w = chain (kerch_table []) None (filter relevant (lv ++ own ++ below_view)) w).
  { rewrite (chain_ext (kerch_table fs) (kerch_table []) l None w).
    - rewrite chain_counted. unfold l. rewrite (filter_app relevant lv ("View" :: own ++ below_view)), (filter_app relevant lv (own ++ below_view)).
      cbn [filter]. replace (relevant "View") with false by (vm_compute; reflexivity). reflexivity.
    - intros w' c I. apply table_other. intros [J|[J|[]]]; cbn [fst] in J; subst c; [exact (F1 I) | exact (F2 I)]. }
  assert (HD : exists l', l = hd "View" lv :: l') by (destruct lv as [|x lv]; [exists (own ++ below_view) | exists (lv ++ "View" :: own ++ below_view)]; reflexivity).
  destruct HD as [l' HD].
  assert (NH1 : f1 <> hd "View" lv) by (intro Q; apply F1; rewrite HD, <- Q; left; reflexivity).
  assert (NH2 : f2 <> hd "View" lv) by (intro Q; apply F2; rewrite HD, <- Q; left; reflexivity).
  assert (T1 : forall w, kerch_table fs w f1 = kerch_table fs w (hd "View" lv)).
  { intro w'. rewrite (table_other fs w' (hd "View" lv)) by (intros [J|[J|[]]]; cbn [fst] in J; congruence).
    unfold kerch_table, fs. cbn [dget]. rewrite String.eqb_refl. reflexivity. }
  assert (T2 : forall w, kerch_table fs w f2 = kerch_table fs w (hd "View" lv)).
  { intro w'. rewrite (table_other fs w' (hd "View" lv)) by (intros [J|[J|[]]]; cbn [fst] in J; congruence).
    unfold kerch_table, fs. cbn [dget]. apply String.eqb_neq in F12. rewrite F12, String.eqb_refl. reflexivity. }
  assert (C1 : chain (kerch_table fs) None (f1 :: l) w = chain (kerch_table fs) None l w).
  { rewrite HD. apply chain_made; [exact T1|]. intros w' p o s w2 T J. subst s. apply table_supers in T. congruence. }
  unfold made. destruct (is_subclass k "SelectDistance"); cbn [app]; fold l.
  - rewrite chain_made; [rewrite C1; exact E | |].
    + intro w'. rewrite T2, T1. reflexivity.
    + intros w' p o s w2 T J. subst s. apply table_supers in T. congruence.
  - rewrite C1. exact E.
Qed.

Lemma own_part : forall n own, In n all_kernels -> filter relevant (own ++ below_kernel) = counted n ->
  filter relevant (own ++ below_view) = filter relevant (firstn (List.length (cls_of n) - 9) (cls_of n)) ++ filter relevant below_view.
Proof.
  intros n own I H. rewrite filter_app in *.
  assert (C : counted n = filter relevant (firstn (List.length (cls_of n) - 9) (cls_of n)) ++ filter relevant below_kernel).
  { unfold counted. rewrite <- filter_app. f_equal.
    assert (A : forallb (fun n => if list_eq_dec string_dec (cls_of n) (firstn (List.length (cls_of n) - 9) (cls_of n) ++ below_kernel) then true else false) all_kernels = true) by (vm_compute; reflexivity).
    rewrite forallb_forall in A. specialize (A n I). cbn beta in A. destruct (list_eq_dec string_dec _ _) as [Q|Q] in A; [exact Q | discriminate A]. }
  rewrite C in H. apply app_inv_tail in H. rewrite H. reflexivity.
Qed.
Theorem is_kernel_chain : forall n fs obj w, is_kernel n fs obj -> chain (kerch_table fs) None obj w = chain (kerch_table []) None (counted n) w.
Proof. intros n fs obj w H. destruct H as [f k d own obj H N R E K]. rewrite (kernel_chain f k d own obj w H N R K), E. reflexivity. Qed.
Theorem is_level_chain : forall b n fs obj w, In n all_kernels -> is_level b n fs obj -> chain (kerch_table fs) None obj w = chain (kerch_table []) None (counted_level b n) w.
Proof.
  intros b n fs obj w I H. destruct H as [f1 f2 lv k d own obj H N R1 R2 B E L].
  rewrite (level_chain f1 f2 lv k d own obj w H N R1 R2 L). rewrite filter_app, B, (own_part n own I E). reflexivity.
Qed.
