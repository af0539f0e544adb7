(** The texts of the errors. *)
From Verif Require Import Base BaseProofs Errors ErrorsSpec.
Open Scope string_scope.
Open Scope list_scope.

Lemma positional_fails : forall ps args, (exists d, bind_positional ps args = Ok d) <-> (List.length args <= List.length ps)%nat.
Proof.
  induction ps as [|p ps IH]; intros [|a args]; simpl.
  - split; [lia | intros _; exists []; reflexivity].
  - split; [intros [d H]; discriminate H | lia].
  - split; [lia | intros _; exists []; reflexivity].
  - specialize (IH args). destruct (bind_positional ps args) as [d|x]; simpl.
    + split; [intros _; assert (H : exists e, Ok d = Ok e) by (exists d; reflexivity); apply IH in H; lia | intros _; eexists; reflexivity].
    + split; [intros [e H]; discriminate H | intro H; assert (L : (List.length args <= List.length ps)%nat) by lia; apply IH in L; destruct L as [e L]; discriminate L].
Qed.
Lemma error_kinds : forall ps args x, bind_positional ps args = Err x -> x = ETypeError.
Proof.
  induction ps as [|p ps IH]; intros [|a args] x; simpl; try discriminate.
  - intro H. injection H as <-. reflexivity.
  - specialize (IH args). destruct (bind_positional ps args) as [d|y]; simpl; [discriminate|].
    intro H. injection H as <-. apply IH. reflexivity.
Qed.
Lemma keyword_kinds : forall ps kw d x, bind_keywords ps kw d = Err x -> x = ETypeError.
Proof.
  intros ps kw. induction kw as [|[k v] kw IH]; intros d x; simpl; [discriminate|].
  destruct (smem k ps); [|intro H; injection H as <-; reflexivity].
  destruct (dmem d k); [intro H; injection H as <-; reflexivity | apply IH].
Qed.
(** Whatever goes wrong while an error is made is a [TypeError]. *)
Lemma only_type_errors : forall e args kw x, error_text e args kw = Err x -> x = ETypeError.
Proof.
  intros e args kw x. unfold error_text, bind_call.
  destruct (bind_positional ["cls"; "message"] args) as [d|y] eqn:E1; cbn [bind].
  - destruct (bind_keywords ["cls"; "message"] kw d) as [d'|y] eqn:E2; cbn [bind].
    + destruct (match dget d' "cls" with Some v => v | None => VNone end); try discriminate.
      destruct (match dget d' "message" with Some v => v | None => VText "" end) as [|s|c'|s]; try (intro H; injection H as <-; reflexivity).
      destruct s; [destruct (dget defaults e) | ]; discriminate.
    + intro H. injection H as <-. apply (keyword_kinds _ _ _ _ E2).
  - intro H. injection H as <-. apply (error_kinds _ _ _ E1).
Qed.

Lemma named : forall e o m w, In w (ways o m) -> error_text e (fst w) (snd w) = Ok (full_text o e (if_any m)).
Proof.
  intros e o m w I. unfold full_text, meant, if_any.
  repeat (destruct I as [<- | I]; [unfold error_text; destruct m; [destruct (dget defaults e); reflexivity | reflexivity] |]). destruct I.
Qed.
Lemma anonymous : forall e m w, In w (ways_anonymous m) -> error_text e (fst w) (snd w) = Ok (meant e (if_any m)).
Proof.
  intros e m w I. unfold meant, if_any.
  repeat (destruct I as [<- | I]; [unfold error_text; destruct m; [destruct (dget defaults e); reflexivity | reflexivity] |]). destruct I.
Qed.
(** A text passed alone is taken for the object. *)
Lemma text_alone : forall e m, error_text e [VText m] [] = Ok (meant e None).
Proof. intros e m. unfold error_text, meant. destruct (dget defaults e); reflexivity. Qed.

Lemma sites_ok : forall o s, In s sites -> ~ In (s_place s) ("kernel/implicit.py:52" :: without_object) ->
  read_at o s = Ok (full_text o (s_class s) (s_message s)).
Proof.
  intros o s I N. unfold sites in I. cbn [In] in I.
  repeat (destruct I as [<- | I]; [try (exfalso; apply N; cbn; tauto); cbn; reflexivity |]). destruct I.
Qed.
Lemma sites_anonymous : forall o s, In s sites -> In (s_place s) without_object -> read_at o s = Ok (meant (s_class s) None).
Proof.
  intros o s I N. unfold sites in I. cbn [In] in I.
  repeat (destruct I as [<- | I]; [try (exfalso; revert N; apply BaseProofs.smem_not_In; vm_compute; reflexivity); cbn; reflexivity |]). destruct I.
Qed.
