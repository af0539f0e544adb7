(** Proofs about who answers when a pre-image is asked for. *)
From Verif Require Import Base Factory Classes ClassesSpec ClassesProofs PreCall PreCallSpec.
Open Scope nat_scope.
Open Scope string_scope.
Open Scope list_scope.

Lemma undefined : forall l a, (forall c, In c l -> pre_defs c = []) -> resolve pre_defs l a = None.
Proof.
  intros l a H. unfold resolve. induction l as [|c l IH]; [reflexivity|]. cbn [find].
  assert (E : defines pre_defs a c = false) by (unfold defines; rewrite (H c (or_introl eq_refl)); reflexivity).
  rewrite E. apply IH. intros x I. apply H. right. exact I.
Qed.
(** The attributes of an object that is asked. *)
Lemma asked_resolve : forall obj own a, asked obj own ->
  resolve pre_defs obj a = match resolve pre_defs own a with Some c => Some c | None => resolve pre_defs below_kernel a end.
Proof.
  intros obj own a A. destruct A as [f k d own obj O N F E | f1 f2 lv k d own obj O N F E].
  - rewrite (kernel_object_order f k d own O N) in E. injection E as <-. rewrite resolve_app, resolve_app.
    rewrite (undefined (made f k)); [reflexivity|]. intros c I. unfold made in I.
    destruct (is_subclass k "SelectDistance"); [|destruct I]. destruct I as [<-|[]]. exact F.
  - rewrite (level_object_order f1 f2 lv k d own O N) in E. injection E as <-.
    rewrite resolve_app. rewrite (undefined (made f2 k)).
    2:{ intros c I. unfold made in I. destruct (is_subclass k "SelectDistance"); [|destruct I]. destruct I as [<-|[]]. apply F. right. left. reflexivity. }
    change (f1 :: lv ++ "View" :: own ++ below_view) with ((f1 :: lv) ++ "View" :: own ++ below_view).
    rewrite resolve_app. rewrite (undefined (f1 :: lv)).
    2:{ intros c I. apply F. destruct I as [<-|I]; [left; reflexivity | right; right; exact I]. }
    change ("View" :: own ++ below_view) with (["View"] ++ own ++ below_view). rewrite resolve_app.
    change (resolve pre_defs ["View"] a) with (if defines pre_defs a "View" then Some "View" else None).
    change (defines pre_defs a "View") with false. cbn iota. rewrite resolve_app.
    destruct (resolve pre_defs own a) as [c|]; [reflexivity|].
    unfold resolve, below_view, below_kernel. cbn [find].
    change (defines pre_defs a "_View") with false. reflexivity.
Qed.
Lemma asked_nodup : forall obj own, asked obj own -> NoDup (own ++ below_view).
Proof.
  intros obj own A. destruct A as [f k d own obj O N F E | f1 f2 lv k d own obj O N F E]; [exact N|].
  apply NoDup_cons_iff in N. destruct N as [_ N]. apply nodup_split in N. destruct N as [_ [N _]].
  apply NoDup_cons_iff in N. exact (proj2 N).
Qed.
Lemma asked_out : forall obj own c, asked obj own -> In c below_view -> ~ In c own.
Proof. intros obj own c A I J. exact (proj2 (proj2 (nodup_split _ _ _ (asked_nodup _ _ A))) c J I). Qed.

(** The classes that define a name. *)
Lemma definers : forall a c, defines pre_defs a c = true ->
  (a = "implicit_preimage" /\ c = "_BaseKernel") \/
  (a = "explicit_preimage" /\ (c = "Kernel" \/ c = "Implicit" \/ c = "Polynomial")) \/
  (a = "_explicit_preimage" /\ (c = "Explicit" \/ c = "Linear" \/ c = "Nystrom" \/ c = "ExplicitNN" \/ c = "RandomFeatures" \/ c = "RFStacked")).
Proof.
  intros a c. unfold defines, pre_defs. cbn [find].
  repeat match goal with
  | |- context [if String.eqb c ?s then _ else _] => destruct (String.eqb_spec c s) as [->|?]
  | |- context [match (if fst _ then _ else _) with _ => _ end] => idtac
  end; cbn [fst snd] in *;
  repeat (match goal with |- context [String.eqb c ?s] => destruct (String.eqb_spec c s) as [->|?] end; cbn [snd]);
  intro H; apply smem_In in H; cbn [In] in H; try (destruct H as [<-|[]]); try contradiction; auto 12.
Qed.
Lemma implicit_of : forall obj own, asked obj own -> resolve pre_defs obj "implicit_preimage" = Some "_BaseKernel".
Proof.
  intros obj own A. rewrite (asked_resolve _ _ _ A). destruct (resolve pre_defs own "implicit_preimage") as [c|] eqn:E; [|reflexivity].
  destruct (resolve_In _ _ _ _ E) as [I D]. apply definers in D. destruct D as [[_ ->]|[[D _]|[D _]]]; try discriminate D. reflexivity.
Qed.
Lemma explicit_of_features : forall obj own, asked obj own -> with_features own -> resolve pre_defs obj "explicit_preimage" = Some "Kernel".
Proof.
  intros obj own A [NI NP]. rewrite (asked_resolve _ _ _ A). destruct (resolve pre_defs own "explicit_preimage") as [c|] eqn:E; [|reflexivity].
  exfalso. destruct (resolve_In _ _ _ _ E) as [I D]. apply definers in D. destruct D as [[D _]|[[_ D]|[D _]]]; try discriminate D.
  destruct D as [->|[->| ->]]; [|exact (NI I)|exact (NP I)]. apply (asked_out _ _ "Kernel" A); [left; reflexivity | exact I].
Qed.
Lemma resolve_first : forall pre c rest a, defines pre_defs a c = true -> (forall x, In x pre -> defines pre_defs a x = false) ->
  resolve pre_defs (pre ++ c :: rest) a = Some c.
Proof.
  intros pre c rest a D P. rewrite resolve_app. assert (E : resolve pre_defs pre a = None).
  { destruct (resolve pre_defs pre a) as [x|] eqn:E; [|reflexivity]. destruct (resolve_In _ _ _ _ E) as [I X]. rewrite (P x I) in X. discriminate X. }
  rewrite E. unfold resolve. cbn [find]. rewrite D. reflexivity.
Qed.
Lemma explicit_of_implicit : forall obj own, asked obj own -> In "Implicit" own -> ~ In "Polynomial" own ->
  resolve pre_defs obj "explicit_preimage" = Some "Implicit".
Proof.
  intros obj own A I NP. rewrite (asked_resolve _ _ _ A). destruct (in_split _ _ I) as [pre [rest E]].
  assert (R : resolve pre_defs own "explicit_preimage" = Some "Implicit").
  { destruct (resolve pre_defs own "explicit_preimage") as [c|] eqn:R.
    - destruct (resolve_In _ _ _ _ R) as [J D]. apply definers in D. destruct D as [[D _]|[[_ D]|[D _]]]; try discriminate D.
      destruct D as [->|[->| ->]]; [|reflexivity | contradiction (NP J)].
      exfalso. apply (asked_out _ _ "Kernel" A); [left; reflexivity | exact J].
    - exfalso. rewrite E, resolve_app in R. destruct (resolve pre_defs pre "explicit_preimage"); [discriminate R|].
      unfold resolve in R. cbn [find] in R. change (defines pre_defs "explicit_preimage" "Implicit") with true in R. discriminate R. }
  rewrite R. reflexivity.
Qed.
Lemma explicit_of_polynomial : forall obj own pre rest, asked obj own -> own = pre ++ "Polynomial" :: rest -> ~ In "Implicit" pre ->
  resolve pre_defs obj "explicit_preimage" = Some "Polynomial".
Proof.
  intros obj own pre rest A E NI. rewrite (asked_resolve _ _ _ A). subst own. rewrite resolve_first; [reflexivity | reflexivity |].
  intros x I. destruct (defines pre_defs "explicit_preimage" x) eqn:D; [|reflexivity]. exfalso.
  apply definers in D. destruct D as [[D _]|[[_ D]|[D _]]]; try discriminate D. destruct D as [->|[->| ->]].
  - apply (asked_out _ _ "Kernel" A); [left; reflexivity | apply in_or_app; left; exact I].
  - exact (NI I).
  - pose proof (asked_nodup _ _ A) as N. apply nodup_split in N. destruct N as [N _]. apply nodup_split in N. destruct N as [_ [_ N]].
    apply (N "Polynomial" I). left. reflexivity.
Qed.

(** The keyword arguments. *)
Lemma keywords_ok : forall accepted extra a, incl extra accepted -> keywords accepted extra a = Ok a.
Proof.
  intros accepted extra a I. unfold keywords. assert (E : forallb (fun x => smem x accepted) extra = true).
  { apply forallb_forall. intros x J. apply smem_In. exact (I x J). } rewrite E. reflexivity.
Qed.
Lemma keywords_wrong : forall accepted extra a, ~ incl extra accepted -> keywords accepted extra a = Err ETypeError.
Proof.
  intros accepted extra a I. unfold keywords. destruct (forallb (fun x => smem x accepted) extra) eqn:E; [|reflexivity].
  exfalso. apply I. intros x J. apply smem_In. exact (proj1 (forallb_forall _ _) E x J).
Qed.
Definition method_of (default : string) (k : call) : string := match c_method k with Some m => m | None => default end.

Theorem implicit_offered : forall obj own k name ans accepted, asked obj own -> In (name, (ans, accepted)) offered ->
  lower (method_of "knn" k) = name ->
  (incl (c_extra k) accepted -> implicit_preimage pre_defs obj k = Some (Ok ans)) /\
  (~ incl (c_extra k) accepted -> implicit_preimage pre_defs obj k = Some (Err ETypeError)).
Proof.
  intros obj own k name ans accepted A I L. unfold implicit_preimage. rewrite (implicit_of _ _ A). cbn iota.
  change (String.eqb "_BaseKernel" "_BaseKernel") with true. cbn iota. fold (method_of "knn" k). unfold implicit_answer. rewrite L.
  destruct I as [E|[E|[E|[]]]]; injection E as <- <- <-; cbn;
    (split; intro H; apply f_equal; [apply keywords_ok | apply keywords_wrong]; exact H).
Qed.
Theorem implicit_unknown : forall obj own k, asked obj own -> ~ In (lower (method_of "knn" k)) (map fst offered) ->
  implicit_preimage pre_defs obj k = Some (Err EAttributeError).
Proof.
  intros obj own k A N. unfold implicit_preimage. rewrite (implicit_of _ _ A). cbn iota.
  change (String.eqb "_BaseKernel" "_BaseKernel") with true. cbn iota. fold (method_of "knn" k). unfold implicit_answer.
  cbn [map fst offered In] in N.
  destruct (String.eqb_spec (lower (method_of "knn" k)) "knn") as [E|_]; [exfalso; apply N; left; symmetry; exact E|].
  destruct (String.eqb_spec (lower (method_of "knn" k)) "smoother") as [E|_]; [exfalso; apply N; right; left; symmetry; exact E|].
  destruct (String.eqb_spec (lower (method_of "knn" k)) "iterative") as [E|_]; [exfalso; apply N; right; right; left; symmetry; exact E|].
  reflexivity.
Qed.
Theorem explicit_offered : forall obj own k name ans accepted, asked obj own -> with_features own -> In (name, (ans, accepted)) offered ->
  lower (method_of "explicit" k) = name ->
  (incl (c_extra k) accepted -> explicit_preimage pre_defs obj k = Some (Ok ans)) /\
  (~ incl (c_extra k) accepted -> explicit_preimage pre_defs obj k = Some (Err ETypeError)).
Proof.
  intros obj own k name ans accepted A W I L. unfold explicit_preimage. rewrite (explicit_of_features _ _ A W). cbn iota.
  change (String.eqb "Kernel" "Kernel") with true. cbn iota. fold (method_of "explicit" k). unfold explicit_answer. rewrite L.
  destruct I as [E|[E|[E|[]]]]; injection E as <- <- <-; cbn;
    (split; intro H; apply f_equal; [apply keywords_ok | apply keywords_wrong]; exact H).
Qed.
Theorem explicit_unknown : forall obj own k, asked obj own -> with_features own ->
  ~ In (lower (method_of "explicit" k)) ("explicit" :: map fst offered) ->
  explicit_preimage pre_defs obj k = Some (Err EAttributeError).
Proof.
  intros obj own k A W N. unfold explicit_preimage. rewrite (explicit_of_features _ _ A W). cbn iota.
  change (String.eqb "Kernel" "Kernel") with true. cbn iota. fold (method_of "explicit" k). unfold explicit_answer.
  cbn [map fst offered In] in N.
  destruct (String.eqb_spec (lower (method_of "explicit" k)) "explicit") as [E|_]; [exfalso; apply N; left; symmetry; exact E|].
  destruct (String.eqb_spec (lower (method_of "explicit" k)) "knn") as [E|_]; [exfalso; apply N; right; left; symmetry; exact E|].
  destruct (String.eqb_spec (lower (method_of "explicit" k)) "smoother") as [E|_]; [exfalso; apply N; right; right; left; symmetry; exact E|].
  destruct (String.eqb_spec (lower (method_of "explicit" k)) "iterative") as [E|_]; [exfalso; apply N; right; right; right; left; symmetry; exact E|].
  reflexivity.
Qed.
(** The pre-image of the class itself: the first class of the kernel that has one. *)
Theorem explicit_own : forall obj own k c, asked obj own -> with_features own -> lower (method_of "explicit" k) = "explicit" ->
  resolve pre_defs own "_explicit_preimage" = Some c ->
  explicit_preimage pre_defs obj k =
    Some (if smem c ["Linear"; "RandomFeatures"; "RFStacked"] then Ok (OwnOf c)
          else if String.eqb c "Explicit" then Err ENotImplemented
          else if String.eqb c "Nystrom" then Err EExplicit else Err (EOther 3)).
Proof.
  intros obj own k c A W L R. unfold explicit_preimage. rewrite (explicit_of_features _ _ A W). cbn iota.
  change (String.eqb "Kernel" "Kernel") with true. cbn iota. fold (method_of "explicit" k). unfold explicit_answer. rewrite L.
  change (String.eqb "explicit" "explicit") with true. cbn iota. unfold own_answer. rewrite (asked_resolve _ _ _ A), R.
  destruct (resolve_In _ _ _ _ R) as [_ D]. apply definers in D. destruct D as [[D _]|[[D _]|[_ D]]]; try discriminate D.
  destruct D as [->|[->|[->|[->|[->| ->]]]]]; reflexivity.
Qed.
Theorem explicit_no_features : forall obj own k, asked obj own -> In "Implicit" own -> ~ In "Polynomial" own ->
  explicit_preimage pre_defs obj k = Some (Err ETypeError).
Proof. intros obj own k A I NP. unfold explicit_preimage. rewrite (explicit_of_implicit _ _ A I NP). reflexivity. Qed.
Theorem explicit_polynomial : forall obj own pre rest k, asked obj own -> own = pre ++ "Polynomial" :: rest -> ~ In "Implicit" pre ->
  explicit_preimage pre_defs obj k = Some (Err ETypeError) \/ explicit_preimage pre_defs obj k = Some (Ok ClassReturned).
Proof.
  intros obj own pre rest k A E NI. unfold explicit_preimage. rewrite (explicit_of_polynomial _ _ _ _ A E NI). cbn.
  destruct (c_image k), (c_method k), (c_extra k); auto.
Qed.
