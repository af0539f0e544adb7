(** Proofs for [PropertiesScript]. *)
From Coq Require Import Permutation.
From Verif Require Import Base BaseProofs Factory Lazy LazySpec LazyModelProofs Trainer Script ScriptSpec.
Open Scope string_scope.
Open Scope list_scope.

(** ** Arguments *)
Definition count_actions (l : list arg) : nat := List.length (filter (fun a => match a with Action _ => true | _ => false end) l).
Definition step_arg (a : args) (x : arg) : args :=
  match x with
  | Action s => match a_action a with
                | Some s' => Args (Some s') true (a_file a) (a_verbose a)
                | None => Args (Some s) (a_extra a) (a_file a) (a_verbose a)
                end
  | File s => Args (a_action a) (a_extra a) (Some s) (a_verbose a)
  | Verbose => Args (a_action a) (a_extra a) (a_file a) true
  | Version => a
  end.
Fixpoint last_file (d : option string) (l : list arg) : option string :=
  match l with [] => d | File s :: l' => last_file (Some s) l' | _ :: l' => last_file d l' end.
Lemma parse_from_some : forall l s x f v, ~ In Version l ->
  parse_from (Args (Some s) x f v) l =
    if (x || negb (Nat.eqb (count_actions l) 0))%bool then Exit 2
    else Parsed s (last_file f l) (v || existsb (fun a => match a with Verbose => true | _ => false end) l).
Proof.
  induction l as [| a l IH]; intros s x f v Hv.
  - cbn. rewrite !orb_false_r. destruct x; reflexivity.
  - assert (Hv' : ~ In Version l) by (intros X; apply Hv; now right).
    destruct a as [s' | s' | |]; cbn [parse_from a_action a_extra a_file a_verbose].
    + rewrite (IH _ _ _ _ Hv'). cbn. rewrite orb_true_r. reflexivity.
    + rewrite (IH _ _ _ _ Hv'). reflexivity.
    + rewrite (IH _ _ _ _ Hv'). cbn [existsb]. rewrite orb_true_r. reflexivity.
    + exfalso. apply Hv. now left.
Qed.
Lemma parse_from_none : forall l f v, ~ In Version l ->
  parse_from (Args None false f v) l =
    match filter (fun a => match a with Action _ => true | _ => false end) l with
    | [Action s] => if String.eqb s "expe" then Parsed s (last_file f l) (v || existsb (fun a => match a with Verbose => true | _ => false end) l) else Exit 2
    | _ => Exit 2
    end.
Proof.
  induction l as [| a l IH]; intros f v Hv; [reflexivity |].
  assert (Hv' : ~ In Version l) by (intros X; apply Hv; now right).
  destruct a as [s | s | |]; cbn [parse_from a_action a_extra a_file a_verbose filter last_file existsb].
  - destruct (String.eqb s "expe") eqn:E.
    + rewrite (parse_from_some _ _ _ _ _ Hv'). unfold count_actions. cbn [orb].
      destruct (filter _ l) as [| b r]; cbn [List.length Nat.eqb negb]; [reflexivity |].
      destruct b; reflexivity.
    + destruct (filter _ l) as [| b r]; reflexivity.
  - apply (IH _ _ Hv').
  - rewrite (IH _ _ Hv'). rewrite orb_true_r. reflexivity.
  - exfalso. apply Hv. now left.
Qed.
Lemma filter_perm : forall (A : Type) (p : A -> bool) l l', Permutation l l' -> Permutation (filter p l) (filter p l').
Proof.
  intros A p l l' H. induction H as [| x l l' H IH | x y l | l l' l'' H1 IH1 H2 IH2]; cbn.
  - constructor.
  - destruct (p x); [now constructor | exact IH].
  - destruct (p y), (p x); try constructor; apply Permutation_refl.
  - exact (Permutation_trans IH1 IH2).
Qed.
Lemma existsb_perm : forall (A : Type) (p : A -> bool) l l', Permutation l l' -> existsb p l = existsb p l'.
Proof.
  intros A p l l' H. apply eq_true_iff_eq. rewrite !existsb_exists.
  split; intros (x & Hx & Hp); exists x; (split; [| exact Hp]).
  - exact (Permutation_in _ H Hx).
  - exact (Permutation_in _ (Permutation_sym H) Hx).
Qed.
Definition files (l : list arg) : list string := flat_map (fun a => match a with File s => [s] | _ => [] end) l.
Lemma last_file_files : forall l d, last_file d l = last (map Some (files l)) d.
Proof.
  assert (L : forall (X : Type) (l : list X) a d, last (a :: l) d = last l a).
  { intros X. induction l as [| b l IH]; intros a d; [reflexivity |].
    change (last (b :: l) d = last (b :: l) a). rewrite !IH. reflexivity. }
  induction l as [| a l IH]; intros d; [reflexivity |].
  destruct a as [s | s | |]; cbn [last_file]; try exact (IH d).
  rewrite (IH (Some s)). unfold files. cbn [flat_map map app]. rewrite L. reflexivity.
Qed.
Lemma files_perm : forall l l', Permutation l l' -> Permutation (files l) (files l').
Proof.
  intros l l' H. unfold files. induction H as [| x l l' H IH | x y l | l l' l'' H1 IH1 H2 IH2]; cbn.
  - constructor.
  - apply Permutation_app_head. exact IH.
  - rewrite !app_assoc. apply Permutation_app_tail. apply Permutation_app_comm.
  - exact (Permutation_trans IH1 IH2).
Qed.
Lemma parse_order : forall l l', Permutation l l' -> ~ In Version l -> List.length (files l) <= 1 -> parse l = parse l'.
Proof.
  intros l l' H Hv Hf. unfold parse, no_args.
  assert (Hv' : ~ In Version l') by (intros X; exact (Hv (Permutation_in _ (Permutation_sym H) X))).
  rewrite (parse_from_none _ _ _ Hv), (parse_from_none _ _ _ Hv').
  pose proof (filter_perm _ (fun a => match a with Action _ => true | _ => false end) _ _ H) as Hp.
  rewrite (existsb_perm _ _ _ _ H).
  assert (Hl : last_file None l = last_file None l').
  { rewrite !last_file_files. pose proof (files_perm _ _ H) as Hq.
    destruct (files l) as [| a [| b r]] eqn:E.
    - apply Permutation_nil in Hq. now rewrite Hq.
    - apply Permutation_length_1_inv in Hq. now rewrite Hq.
    - cbn in Hf. lia. }
  rewrite Hl.
  destruct (filter _ l) as [| a [| b r]].
  - apply Permutation_nil in Hp. rewrite Hp. reflexivity.
  - apply Permutation_length_1_inv in Hp. rewrite Hp. reflexivity.
  - apply Permutation_length in Hp. destruct (filter _ l') as [| a' [| b' r']]; cbn in Hp; try lia.
    destruct a, a'; reflexivity.
Qed.
Lemma parse_parsed : forall l a f v, parse l = Parsed a f v ->
  a = "expe" /\ filter (fun x => match x with Action _ => true | _ => false end) l = [Action "expe"] /\
  f = last (map Some (files l)) None /\ (v = true <-> In Verbose l) /\ ~ In Version l.
Proof.
  intros l a f v H.
  assert (NV : ~ In Version l).
  { assert (G : forall l a0, In Version l -> exists n, parse_from a0 l = Exit n).
    { clear. induction l as [| x l IH]; intros a0 Hi; [destruct Hi |].
      destruct Hi as [-> | Hi]; [now exists 0 |].
      destruct x as [s | s | |]; cbn [parse_from]; try (apply IH; exact Hi); [| now exists 0].
      destruct (a_action a0); [apply IH; exact Hi |]. destruct (String.eqb s "expe"); [apply IH; exact Hi | now exists 2]. }
    intros Hi. destruct (G l no_args Hi) as (n & Hn). unfold parse in H. rewrite Hn in H. discriminate H. }
  revert H. unfold parse, no_args. rewrite (parse_from_none _ _ _ NV), last_file_files.
  destruct (filter _ l) as [| x [| y r]] eqn:E; [discriminate | | destruct x; discriminate].
  destruct x as [s | s | |]; try discriminate.
  destruct (String.eqb s "expe") eqn:Es; [| discriminate]. apply String.eqb_eq in Es. subst s.
  intros H. injection H as H1 H2 H3. subst a f. split; [reflexivity |]. split; [reflexivity |]. split; [reflexivity |].
  split; [| exact NV]. subst v. cbn [orb]. rewrite existsb_exists. split.
  - intros (x & Hx & Hp). destruct x; try discriminate. exact Hx.
  - intros Hx. exists Verbose. split; [exact Hx | reflexivity].
Qed.

(** ** Names of experiments *)
Lemma substring_prefix : forall s t, substring 0 (String.length s) (s ++ t) = s.
Proof. induction s as [| c s IH]; intros t; cbn; [now destruct t |]. now rewrite IH. Qed.
Lemma append_length : forall s t, String.length (s ++ t) = String.length s + String.length t.
Proof. induction s as [| c s IH]; intros t; cbn; [reflexivity | now rewrite IH]. Qed.
Lemma append_assoc_s : forall a b c : string, ((a ++ b) ++ c)%string = (a ++ (b ++ c))%string.
Proof. induction a as [| x a IH]; intros b c; cbn; [reflexivity | now rewrite IH]. Qed.
Lemma expe_name_app : forall s t, String.length t = 5 -> expe_name (s ++ t) = s.
Proof.
  intros s t H. unfold expe_name. rewrite append_length, H.
  replace (String.length s + 5 - 5) with (String.length s) by lia. apply substring_prefix.
Qed.
Lemma expe_name_yml : forall s c, expe_name (s ++ String c ".yml") = s.
Proof. intros s c. apply expe_name_app. reflexivity. Qed.

(** ** Runs *)
Local Opaque model_step.
Section R.
Context (read : string -> result yval) (mkdata : string -> dict yval -> result nat)
        (mkmodel : string -> dict yval -> result unit) (fit : dict yval -> result unit)
        (trainer_attr : state -> result unit).
Notation run := (expe_run read mkdata mkmodel fit trainer_attr).

Lemma andthen_ok : forall A B (t : trace A) (f : A -> trace B) l b,
  andthen t f = (l, Ok b) -> exists l1 a l2, t = (l1, Ok a) /\ f a = (l2, Ok b) /\ l = l1 ++ l2.
Proof.
  intros A B [l1 [a | e]] f l b H; unfold andthen in H; cbn in H; [| discriminate H].
  exists l1, a, (fst (f a)). split; [reflexivity |].
  injection H as H1 H2. split; [| now symmetry]. rewrite <- H2. destruct (f a); reflexivity.
Qed.
Lemma effects_app : forall a b, effects (a ++ b) = effects a ++ effects b.
Proof. intros a b. apply filter_app. Qed.
Lemma say_ok : forall v s, exists l, say v s = (l, Ok tt) /\ effects l = [].
Proof. intros [|] s; [exists [Said s] | exists []]; split; reflexivity. Qed.
Lemma say_effects : forall v s l a, say v s = (l, Ok a) -> effects l = [].
Proof. intros v s l a H. destruct (say_ok v s) as (l' & E & Hl). rewrite E in H. injection H as H1 _. now rewrite <- H1. Qed.

Lemma unpack_section : forall doc k o, bind (subscript doc k) unpack = Ok o <-> section doc k o.
Proof.
  intros doc k o. unfold section. split.
  - destruct doc as [| | | | | | top]; try discriminate. cbn. destruct (dget top k) as [x |] eqn:E; [| discriminate].
    cbn. destruct x as [| | | | | | d]; try discriminate. intros H. injection H as <-. exists top. now split.
  - intros (top & -> & H). cbn. rewrite H. reflexivity.
Qed.
Lemma names_option : forall find o k default c,
  names find o k default c <-> exists s, option_or o k (YStr default) = YStr s /\ find s = Ok c.
Proof.
  intros find o k default c. unfold names, option_or. split.
  - intros [(s & H1 & H2) | [H1 H2]]; rewrite H1; eexists; (split; [reflexivity | exact H2]).
  - destruct (dget o k) as [x |] eqn:E.
    + intros (s & -> & H). left. exists s. now split.
    + intros (s & H1 & H2). injection H1 as <-. right. now split.
Qed.

Lemma load_data_ok : forall o l n, load_data mkdata o = (l, Ok n) <->
  exists c, names data_factory o "dataset" "gaussians" c /\ mkdata c (dpop o "dataset") = Ok n /\ l = [DataLoaded c (dpop o "dataset")].
Proof.
  intros o l n. unfold load_data. split.
  - destruct (option_or o "dataset" (YStr "gaussians")) as [| | | | s | |] eqn:E; try (intros H; discriminate H).
    intros H. apply andthen_ok in H. destruct H as (l1 & c & l2 & H1 & H & ->).
    apply andthen_ok in H. destruct H as (l3 & n' & l4 & H3 & H & ->).
    apply andthen_ok in H. destruct H as (l5 & [] & l6 & H5 & H & ->).
    injection H1 as H1 Hc. injection H3 as H3 Hn. injection H5 as H5. injection H as H6 Hr. subst.
    exists c. split; [apply names_option; exists s; now split |]. split; [exact Hn | reflexivity].
  - intros (c & Hc & Hn & ->). apply names_option in Hc. destruct Hc as (s & -> & Hs).
    unfold lift, andthen. cbn. rewrite Hs. cbn. rewrite Hn. reflexivity.
Qed.
Lemma load_data_err : forall o l e, load_data mkdata o = (l, Err e) -> l = [].
Proof.
  intros o l e. unfold load_data.
  destruct (option_or o "dataset" (YStr "gaussians")) as [| | | | s | |]; try (intros H; injection H as <- _; reflexivity).
  unfold lift, andthen. cbn. destruct (data_factory s) as [c | e']; cbn; [| intros H; injection H as <- _; reflexivity].
  destruct (mkdata c (dpop o "dataset")) as [n | e']; cbn; intros H; [discriminate H | injection H as <- _; reflexivity].
Qed.
Lemma load_model_ok : forall s o l s', load_model mkmodel s o = (l, Ok s') -> exists c ty,
  names model_factory o "model_type" "rkm" c /\ option_or o "model_type" (YStr "rkm") = YStr ty /\
  is_ok (fst (model_step s (CreateModel ty))) = true /\ s' = snd (model_step s (CreateModel ty)) /\
  mkmodel c (dpop o "model_type") = Ok tt /\ l = [ModelLoaded c (dpop o "model_type")].
Proof.
  intros s o l s'. unfold load_model.
  destruct (option_or o "model_type" (YStr "rkm")) as [| | | | ty | |] eqn:E; try (intros H; discriminate H).
  destruct (model_step s (CreateModel ty)) as [r s1] eqn:Es. intros H.
  apply andthen_ok in H. destruct H as (l1 & c & l2 & H1 & H & ->).
  apply andthen_ok in H. destruct H as (l3 & [] & l4 & H3 & H & ->).
  apply andthen_ok in H. destruct H as (l5 & [] & l6 & H5 & H & ->).
  injection H1 as H1 Hc. injection H3 as H3 Hn. injection H5 as H5. injection H as H6 Hr.
  destruct r as [v | e]; [| discriminate Hc]. cbn [bind] in Hc.
  subst. exists c, ty. split; [apply names_option; exists ty; now split |].
  split; [reflexivity |]. rewrite Es. repeat split; assumption.
Qed.
Lemma load_model_ok_conv : forall s o c ty,
  option_or o "model_type" (YStr "rkm") = YStr ty -> model_factory ty = Ok c ->
  is_ok (fst (model_step s (CreateModel ty))) = true -> mkmodel c (dpop o "model_type") = Ok tt ->
  load_model mkmodel s o = ([ModelLoaded c (dpop o "model_type")], Ok (snd (model_step s (CreateModel ty)))).
Proof.
  intros s o c ty Ho Hc Hs Hm. unfold load_model. rewrite Ho.
  destruct (model_step s (CreateModel ty)) as [[v | e] s1]; [| discriminate Hs].
  unfold lift, andthen. cbn. rewrite Hc. cbn. rewrite Hm. reflexivity.
Qed.
Lemma load_model_err : forall s o l e, load_model mkmodel s o = (l, Err e) -> l = [].
Proof.
  intros s o l e. unfold load_model.
  destruct (option_or o "model_type" (YStr "rkm")) as [| | | | ty | |]; try (intros H; injection H as <- _; reflexivity).
  destruct (model_step s (CreateModel ty)) as [r s1]. unfold lift, andthen. cbn.
  destruct (bind r (fun _ => model_factory ty)) as [c | e']; cbn; [| intros H; injection H as <- _; reflexivity].
  destruct (mkmodel c (dpop o "model_type")) as [[] | e']; cbn; intros H; [discriminate H | injection H as <- _; reflexivity].
Qed.

(** A run that ends well did everything, with the sections of the file. *)
Lemma run_ok : forall s verbose file l, run s verbose (Some file) = (l, Ok tt) ->
  exists doc d m t cd cm num s' o,
    read file = Ok doc /\ section doc "data" d /\ section doc "model" m /\ section doc "train" t /\
    names data_factory d "dataset" "gaussians" cd /\ mkdata cd (dpop d "dataset") = Ok num /\
    names model_factory m "model_type" "rkm" cm /\ mkmodel cm (dpop m "model_type") = Ok tt /\
    trainer_attr s' = Ok tt /\ trainer_call num verbose (expe_name file) t = Ok o /\ fit o = Ok tt /\
    effects l = [DataLoaded cd (dpop d "dataset"); ModelLoaded cm (dpop m "model_type"); TrainerMade o; Trained].
Proof.
  intros s verbose file l H. unfold expe_run in H.
  Ltac next H l a l' E := apply andthen_ok in H; destruct H as (l & a & l' & E & H & ->).
  next H l1 doc r1 E1. next H l2 u2 r2 E2. next H l3 d r3 E3. next H l4 num r4 E4. next H l5 u5 r5 E5. next H l6 u6 r6 E6.
  next H l7 m r7 E7. next H l8 s' r8 E8. next H l9 u9 r9 E9. next H l10 u10 r10 E10. next H l11 u11 r11 E11.
  next H l12 t r12 E12. next H l13 o r13 E13. next H l14 u14 r14 E14. next H l15 u15 r15 E15. next H l16 u16 r16 E16.
  next H l17 u17 r17 E17. next H l18 u18 r18 E18.
  unfold lift in *. injection E1 as <- Hread. injection E3 as <- Hd. injection E7 as <- Hm. injection E11 as <- Ht'.
  injection E12 as <- Ht. injection E13 as <- Ho. injection E17 as <- Hfit. unfold emit in *. injection E14 as <- _. injection E18 as <- _.
  apply unpack_section in Hd. apply unpack_section in Hm. apply unpack_section in Ht.
  apply load_data_ok in E4. destruct E4 as (cd & Hcd & Hnum & ->).
  apply load_model_ok in E8. destruct E8 as (cm & ty & Hcm & Hty & Hst & Hs' & Hmk & ->).
  destruct u11, u17.
  exists doc, d, m, t, cd, cm, num, s', o. repeat (split; [assumption |]).
  rewrite !effects_app, (say_effects _ _ _ _ E2), (say_effects _ _ _ _ E5), (say_effects _ _ _ _ E6), (say_effects _ _ _ _ E9),
    (say_effects _ _ _ _ E10), (say_effects _ _ _ _ E15), (say_effects _ _ _ _ E16), (say_effects _ _ _ _ H).
  reflexivity.
Qed.
Lemma run_ok_conv : forall s verbose file doc d m t cd cm ty num o,
  read file = Ok doc -> section doc "data" d -> section doc "model" m -> section doc "train" t ->
  names data_factory d "dataset" "gaussians" cd -> mkdata cd (dpop d "dataset") = Ok num ->
  option_or m "model_type" (YStr "rkm") = YStr ty -> model_factory ty = Ok cm ->
  is_ok (fst (model_step s (CreateModel ty))) = true -> mkmodel cm (dpop m "model_type") = Ok tt ->
  trainer_attr (snd (model_step s (CreateModel ty))) = Ok tt ->
  trainer_call num verbose (expe_name file) t = Ok o -> fit o = Ok tt ->
  exists l, run s verbose (Some file) = (l, Ok tt).
Proof.
  intros s verbose file doc d m t cd cm ty num o Hread Hd Hm Ht Hcd Hnum Hty Hcm Hst Hmk Ha Ho Hfit.
  apply unpack_section in Hd. apply unpack_section in Hm. apply unpack_section in Ht.
  assert (E4 : load_data mkdata d = ([DataLoaded cd (dpop d "dataset")], Ok num)).
  { apply load_data_ok. exists cd. repeat split; assumption. }
  pose proof (load_model_ok_conv s m cm ty Hty Hcm Hst Hmk) as E8.
  assert (G : forall A (x : trace A) (f : A -> trace unit) l1 a, x = (l1, Ok a) ->
    (exists l, f a = (l, Ok tt)) -> exists l, andthen x f = (l, Ok tt)).
  { intros A x f l1 a -> (l & Hl). unfold andthen. cbn. rewrite Hl. cbn. eexists. reflexivity. }
  assert (S0 : forall x (f : unit -> trace unit), (exists l, f tt = (l, Ok tt)) -> exists l, andthen (say verbose x) f = (l, Ok tt)).
  { intros x f Hf. destruct (say_ok verbose x) as (l1 & E & _). exact (G _ _ _ _ _ E Hf). }
  unfold expe_run, lift, emit.
  eapply G; [rewrite Hread; reflexivity |]. cbv beta. apply S0. eapply G; [rewrite Hd; reflexivity |]. eapply G; [exact E4 |].
  apply S0. apply S0. eapply G; [rewrite Hm; reflexivity |]. eapply G; [exact E8 |]. apply S0. apply S0.
  eapply G; [rewrite Ha; reflexivity |]. eapply G; [rewrite Ht; reflexivity |]. eapply G; [rewrite Ho; reflexivity |].
  eapply G; [reflexivity |]. apply S0. apply S0. eapply G; [rewrite Hfit; reflexivity |]. eapply G; [reflexivity |].
  destruct (say_ok verbose "Model trained") as (l & E & _). exists l. exact E.
Qed.

(** Whatever happens, the parts happen in order and none is skipped. *)
Definition ordered (l : list event) : Prop := exists k, map stage (effects l) = seq 1 k /\ k <= 4.
Lemma andthen_lift_err : forall A B (e : exn) (f : A -> trace B), andthen (lift (Err e)) f = ([], Err e).
Proof. reflexivity. Qed.
Lemma andthen_assoc_pre : forall A B (t : trace A) (f : A -> trace B),
  fst (andthen t f) = fst t ++ match snd t with Ok a => fst (f a) | Err _ => [] end.
Proof. intros A B [l [a | e]] f; cbn; [reflexivity | now rewrite app_nil_r]. Qed.
(** From the stage [k] on. *)
Definition from (k : nat) (l : list event) : Prop := exists n, map stage (effects l) = seq (S k) n /\ k + n <= 4.
Lemma from_nil : forall k, k <= 4 -> from k [].
Proof. intros k H. exists 0. split; [reflexivity | lia]. Qed.
Lemma from_lift : forall A B k (r : result A) (f : A -> trace B), k <= 4 -> (forall a, r = Ok a -> from k (fst (f a))) -> from k (fst (andthen (lift r) f)).
Proof. intros A B k [a | e] f Hk H; rewrite andthen_assoc_pre; cbn; [exact (H a eq_refl) | exact (from_nil k Hk)]. Qed.
Lemma from_say : forall B k v s (f : unit -> trace B), from k (fst (f tt)) -> from k (fst (andthen (say v s) f)).
Proof.
  intros B k v s f (n & Hn & Hk). rewrite andthen_assoc_pre. destruct (say_ok v s) as (l & E & El). rewrite E. cbn.
  exists n. rewrite effects_app, El. now split.
Qed.
Lemma from_emit : forall A B k e a (f : A -> trace B), stage e = S k -> effect e = true -> from (S k) (fst (f a)) -> from k (fst (andthen ([e], Ok a) f)).
Proof.
  intros A B k e a f He Hf (n & Hn & Hk). rewrite andthen_assoc_pre. cbn. exists (S n). cbn. rewrite Hf. cbn. rewrite He.
  split; [f_equal; exact Hn | lia].
Qed.
Lemma run_ordered : forall s verbose file, from 0 (fst (run s verbose file)).
Proof.
  intros s verbose [file |]; [| apply from_nil; lia]. unfold expe_run.
  apply from_lift; [lia |]. intros doc _. apply from_say. apply from_lift; [lia |]. intros d _.
  destruct (load_data mkdata d) as [l [num | e]] eqn:E.
  2: { apply load_data_err in E. subst l. apply from_nil. lia. }
  apply load_data_ok in E. destruct E as (cd & _ & _ & ->). apply from_emit; [reflexivity .. |].
  apply from_say. apply from_say. apply from_lift; [lia |]. intros m _.
  destruct (load_model mkmodel s m) as [l [s' | e]] eqn:E.
  2: { apply load_model_err in E. subst l. apply from_nil. lia. }
  apply load_model_ok in E. destruct E as (cm & ty & _ & _ & _ & _ & _ & ->). apply from_emit; [reflexivity .. |].
  apply from_say. apply from_say. apply from_lift; [lia |]. intros u _. apply from_lift; [lia |]. intros t _.
  apply from_lift; [lia |]. intros o _. unfold emit at 1. apply from_emit; [reflexivity .. |].
  apply from_say. apply from_say. apply from_lift; [lia |]. intros u' _. unfold emit. apply from_emit; [reflexivity .. |].
  destruct (say_ok verbose "Model trained") as (l & E & El). rewrite E. exists 0. cbn [fst]. rewrite El. split; [reflexivity | lia].
Qed.

(** Nothing is trained when the trainer is not available. *)
Lemma run_unavailable : forall s verbose file,
  (forall ty, is_ok (fst (model_step s (CreateModel ty))) = true -> exists e, trainer_attr (snd (model_step s (CreateModel ty))) = Err e) ->
  (exists e, snd (run s verbose file) = Err e) /\ forall e, In e (fst (run s verbose file)) -> stage e <= 2.
Proof.
  intros s verbose [file |] H.
  2: { split; [now exists ETypeError | intros e []]. }
  unfold expe_run.
  Ltac err := split; [eexists; reflexivity | let e := fresh in let X := fresh in intros e X; cbn in X; try contradiction].
  assert (G : forall A (t : trace A) (f : A -> trace unit), (forall e, In e (fst t) -> stage e <= 2) ->
    (forall a, snd t = Ok a -> (exists e, snd (f a) = Err e) /\ forall e, In e (fst (f a)) -> stage e <= 2) ->
    (exists e, snd (andthen t f) = Err e) /\ forall e, In e (fst (andthen t f)) -> stage e <= 2).
  { intros A [l [a | e0]] f H1 H2; cbn in H1 |- *.
    - destruct (H2 a eq_refl) as [(e & He) Hs]. split; [exists e; exact He |]. intros e' X. apply in_app_or in X.
      destruct X as [X | X]; [exact (H1 _ X) | exact (Hs _ X)].
    - split; [exists e0; reflexivity | exact H1]. }
  assert (S0 : forall v x e, In e (fst (say v x)) -> stage e <= 2) by (intros [|] x e X; [destruct X as [<- | []]; cbn; lia | destruct X]).
  assert (L0 : forall A (r : result A) e, In e (fst (lift r)) -> stage e <= 2) by (intros A r e []).
  apply G; [apply L0 |]. intros doc _. apply G; [apply S0 |]. intros _ _. apply G; [apply L0 |]. intros d _.
  apply G.
  { intros e. destruct (load_data mkdata d) as [l [n | e0]] eqn:E.
    - apply load_data_ok in E. destruct E as (c & _ & _ & ->). intros [<- | []]. cbn. lia.
    - apply load_data_err in E. subst l. intros []. }
  intros num _. apply G; [apply S0 |]. intros _ _. apply G; [apply S0 |]. intros _ _. apply G; [apply L0 |]. intros m _.
  destruct (load_model mkmodel s m) as [l [s' | e0]] eqn:E.
  2: { apply load_model_err in E. subst l. split; [eexists; reflexivity | intros e []]. }
  apply load_model_ok in E. destruct E as (c & ty & _ & _ & Hst & -> & _ & ->).
  apply G. { intros e [<- | []]. cbn. lia. }
  intros s' Hs'. injection Hs' as <-. apply G; [apply S0 |]. intros _ _. apply G; [apply S0 |]. intros _ _.
  destruct (H ty Hst) as (e & He). rewrite He. split; [eexists; reflexivity | intros e' []].
Qed.

(** Speaking changes nothing else. *)
Definition alike {A} (t u : trace A) : Prop := map quietly (effects (fst t)) = map quietly (effects (fst u)) /\ snd t = snd u.
Lemma alike_andthen : forall A B (t u : trace A) (f g : A -> trace B), alike t u -> (forall a, snd t = Ok a -> alike (f a) (g a)) -> alike (andthen t f) (andthen u g).
Proof.
  intros A B [l r] [l' r'] f g [H1 H2] H. cbn [fst snd] in H1, H2, H. subst r'. destruct r as [a | e]; unfold alike, andthen; cbn [fst snd].
  - destruct (H a eq_refl) as [H3 H4]. rewrite !effects_app, !map_app, H1, H3. now split.
  - now split.
Qed.
Lemma alike_refl : forall A (t : trace A), alike t t.
Proof. intros A t. now split. Qed.
Lemma alike_say : forall v w x, alike (say v x) (say w x).
Proof. intros [|] [|] x; now split. Qed.
Lemma alike_ok2 : forall A B (a b : A) (f g : A -> trace B), alike (f a) (g b) -> alike (andthen (lift (Ok a)) f) (andthen (lift (Ok b)) g).
Proof. intros A B a b f g [H1 H2]. split; [exact H1 | exact H2]. Qed.
Lemma run_quiet : forall s file v w,
  (forall o b b', fit (("verbose", YBool b) :: o) = fit (("verbose", YBool b') :: o)) -> alike (run s v file) (run s w file).
Proof.
  intros s [file |] v w Hfit; [| apply alike_refl]. unfold expe_run.
  apply alike_andthen; [apply alike_refl |]. intros doc _. apply alike_andthen; [apply alike_say |]. intros _ _.
  apply alike_andthen; [apply alike_refl |]. intros d _. apply alike_andthen; [apply alike_refl |]. intros num _.
  apply alike_andthen; [apply alike_say |]. intros _ _. apply alike_andthen; [apply alike_say |]. intros _ _.
  apply alike_andthen; [apply alike_refl |]. intros m _. apply alike_andthen; [apply alike_refl |]. intros s' _.
  apply alike_andthen; [apply alike_say |]. intros _ _. apply alike_andthen; [apply alike_say |]. intros _ _.
  apply alike_andthen; [apply alike_refl |]. intros u _. apply alike_andthen; [apply alike_refl |]. intros t _.
  unfold trainer_call. destruct (existsb _ _); [apply alike_refl |]. destruct (trainer_init num t) as [[] | e]; [| apply alike_refl].
  apply alike_ok2.
  apply alike_andthen; [split; reflexivity |]. intros _ _.
  apply alike_andthen; [apply alike_say |]. intros _ _. apply alike_andthen; [apply alike_say |]. intros _ _.
  rewrite (Hfit _ v w).
  apply alike_andthen; [apply alike_refl |]. intros _ _. apply alike_andthen; [apply alike_refl |]. intros _ _. apply alike_say.
Qed.
End R.

Lemma model_run_snoc : forall us s u, model_run s (us ++ [u]) = snd (model_step (model_run s us) u).
Proof. induction us as [| x us IH]; intros s u; [reflexivity |]. exact (IH _ u). Qed.
Lemma as_written_fails : forall read mkdata mkmodel fit us verbose file,
  (exists e, snd (expe_run read mkdata mkmodel fit trainer_attr_as_written (model_run model_start us) verbose file) = Err e) /\
  forall e, In e (fst (expe_run read mkdata mkmodel fit trainer_attr_as_written (model_run model_start us) verbose file)) -> stage e <= 2.
Proof.
  intros read mkdata mkmodel fit us verbose file. apply run_unavailable. intros ty _.
  rewrite <- model_run_snoc. unfold trainer_attr_as_written. rewrite (model_trainer (us ++ [CreateModel ty])). eexists. reflexivity.
Qed.
Lemma trainer_call_ok : forall num verbose name t o, trainer_call num verbose name t = Ok o <->
  o = ("verbose", YBool verbose) :: ("expe_name", YStr name) :: t /\
  (forall k, In k ["model"; "learning_set"; "verbose"; "expe_name"] -> dget t k = None) /\ trainer_init num t = Ok tt.
Proof.
  intros num verbose name t o. unfold trainer_call.
  destruct (existsb (dmem t) _) eqn:E.
  - split; [discriminate |]. intros (_ & H & _). apply existsb_exists in E. destruct E as (k & Hk & Hm).
    unfold dmem in Hm. rewrite (H k Hk) in Hm. discriminate Hm.
  - assert (N : forall k, In k ["model"; "learning_set"; "verbose"; "expe_name"] -> dget t k = None).
    { intros k Hk. destruct (dget t k) as [x |] eqn:Ex; [| reflexivity].
      assert (X : existsb (dmem t) ["model"; "learning_set"; "verbose"; "expe_name"] = true).
      { apply existsb_exists. exists k. split; [exact Hk |]. unfold dmem. rewrite Ex. reflexivity. }
      rewrite E in X. discriminate X. }
    destruct (trainer_init num t) as [[] | e]; cbn [bind].
    + split; [intros H; injection H as <-; now repeat split | intros (-> & _); reflexivity].
    + split; [discriminate | intros (_ & _ & H); discriminate H].
Qed.

(** *** What the trainer accepts *)
Lemma option_or_cases (d : dict yval) k v : (dget d k = None /\ option_or d k v = v) \/ (exists x, dget d k = Some x /\ option_or d k v = x).
Proof. unfold option_or. destruct (dget d k) as [x|]; [right; now exists x | left; auto]. Qed.
Lemma set_problem_ok v : set_problem v = Ok tt <-> v = YStr "regression".
Proof.
  unfold set_problem. destruct v; try (split; intros H; discriminate H).
  destruct (String.eqb s "regression") eqn:E; [apply String.eqb_eq in E; subst s; tauto|].
  split; intros H; [|injection H as ->; discriminate E]. destruct (String.eqb s "classification"); discriminate H.
Qed.
Definition positive_number (v : yval) : Prop :=
  (exists z, v = YInt z /\ (0 < z)%Z) \/ v = YBool true \/ (exists n p, v = YFloat n p /\ (0 < n)%Z).
Lemma set_epochs_ok v : set_epochs v = Ok tt <-> positive_number v.
Proof.
  unfold set_epochs, positive_number. destruct v as [|b|z|n p|s|l|d];
    try (split; [intros H; discriminate H | intros [(? & H & _)|[H|(? & ? & H & _)]]; discriminate H]).
  - destruct b; split; intros H; auto; try discriminate H. destruct H as [(? & H & _)|[H|(? & ? & H & _)]]; discriminate H.
  - destruct (0 <? z)%Z eqn:E; split; intros H; auto.
    + left. exists z. apply Z.ltb_lt in E. auto.
    + discriminate H.
    + destruct H as [(z' & H & P)|[H|(? & ? & H & _)]]; try discriminate H. injection H as <-. apply Z.ltb_ge in E. lia.
  - destruct (0 <? n)%Z eqn:E; split; intros H; auto.
    + right. right. exists n, p. apply Z.ltb_lt in E. auto.
    + discriminate H.
    + destruct H as [(? & H & _)|[H|(n' & p' & H & P)]]; try discriminate H. injection H as <- <-. apply Z.ltb_ge in E. lia.
Qed.
Lemma batch_ok num t v : fst (set_batch_size num t (to_bsize v)) = Ok tt <->
  0 < num /\ (v = YStr "all" \/ exists z, v = YInt z /\ (0 < z <= Z.of_nat num)%Z).
Proof.
  unfold set_batch_size. destruct v as [|b|z|n p|s|l|d]; cbn [to_bsize];
    try (split; [intros H; discriminate H | intros [_ [H|(? & H & _)]]; discriminate H]).
  - destruct b; [destruct (Nat.eqb num 0)|]; (split; [intros H; discriminate H | intros [_ [H|(? & H & _)]]; discriminate H]).
  - destruct (z <=? 0)%Z eqn:E1.
    { split; [intros H; discriminate H|]. apply Z.leb_le in E1. intros [_ [H|(z' & H & P)]]; [discriminate H|]. injection H as <-. lia. }
    destruct (Z.of_nat num <? z)%Z eqn:E2.
    { split; [intros H; discriminate H|]. apply Z.ltb_lt in E2. intros [_ [H|(z' & H & P)]]; [discriminate H|]. injection H as <-. lia. }
    apply Z.leb_gt in E1. apply Z.ltb_ge in E2. unfold batch_sampler. destruct (Nat.eqb (Z.to_nat z) 0) eqn:E3; [apply Nat.eqb_eq in E3; lia|].
    split; [|reflexivity]. intros _. split; [lia|]. right. exists z. split; [reflexivity | lia].
  - destruct (String.eqb s "all") eqn:E.
    + apply String.eqb_eq in E. subst s. unfold batch_sampler. destruct (Nat.eqb num 0) eqn:E3.
      * apply Nat.eqb_eq in E3. split; [intros H; discriminate H | lia].
      * apply Nat.eqb_neq in E3. split; [|reflexivity]. intros _. split; [lia | now left].
    + split; [intros H; discriminate H|]. intros [_ [H|(? & H & _)]]; [injection H as ->; discriminate E | discriminate H].
Qed.
Theorem trainer_accepts num o : trainer_init num o = Ok tt <->
  0 < num /\ (dget o "problem" = None \/ dget o "problem" = Some (YStr "regression")) /\
  (forall v, dget o "batch_size" = Some v -> v = YStr "all" \/ exists z, v = YInt z /\ (0 < z <= Z.of_nat num)%Z) /\
  (forall v, dget o "epochs" = Some v -> positive_number v).
Proof.
  unfold trainer_init.
  assert (P : set_problem (option_or o "problem" (YStr "regression")) = Ok tt <->
              (dget o "problem" = None \/ dget o "problem" = Some (YStr "regression"))).
  { rewrite set_problem_ok. destruct (option_or_cases o "problem" (YStr "regression")) as [[A B]|(x & A & B)]; rewrite A, B; [tauto|].
    split; [intros ->; now right | intros [H|H]; [discriminate H | now injection H]]. }
  assert (B : fst (set_batch_size num (Batching [] None) (to_bsize (option_or o "batch_size" (YStr "all")))) = Ok tt <->
              0 < num /\ (forall v, dget o "batch_size" = Some v -> v = YStr "all" \/ exists z, v = YInt z /\ (0 < z <= Z.of_nat num)%Z)).
  { rewrite batch_ok. destruct (option_or_cases o "batch_size" (YStr "all")) as [[A B]|(x & A & B)]; rewrite A, B.
    - split; intros [H _]; split; auto. intros v H'. discriminate H'.
    - split; intros [H K]; split; auto. intros v H'. injection H' as <-. exact K. }
  assert (E : set_epochs (option_or o "epochs" (YInt 100)) = Ok tt <-> (forall v, dget o "epochs" = Some v -> positive_number v)).
  { rewrite set_epochs_ok. destruct (option_or_cases o "epochs" (YInt 100)) as [[A C]|(x & A & C)]; rewrite A, C.
    - split; [intros _ v H; discriminate H | intros _; left; exists 100%Z; split; [reflexivity | lia]].
    - split; [intros H v H'; injection H' as <-; exact H | intros H; now apply H]. }
  destruct (set_problem (option_or o "problem" (YStr "regression"))) as [[]|e]; cbn [bind].
  - destruct (fst (set_batch_size num (Batching [] None) (to_bsize (option_or o "batch_size" (YStr "all"))))) as [[]|e]; cbn [bind].
    + rewrite E. tauto.
    + split; [intros H; discriminate H|]. intros (H1 & H2 & H3 & H4). assert (X : Err e = Ok tt) by (apply B; tauto). discriminate X.
  - split; [intros H; discriminate H|]. intros (H1 & H2 & H3 & H4). assert (X : Err e = Ok tt) by (apply P; tauto). discriminate X.
Qed.
