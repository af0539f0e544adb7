(** C179 *)
From Verif Require Import Base Errors ErrorsSpec ErrorsProofs.
Open Scope string_scope.
Open Scope list_scope.

(** C179 (full statement, false: "every error of kerch tells which object complains and why").
    Holds of the errors themselves: whatever the class of the error, the object and the message,
    and however they are passed, the text is the name of the class of the object and the message,
    that of the class of the error if none is given. *)
Theorem C179_text_partial : forall e o m,
  (forall w, In w (ways o m) -> error_text e (fst w) (snd w) = Ok (full_text o e (if_any m))) /\
  (forall w, In w (ways_anonymous m) -> error_text e (fst w) (snd w) = Ok (meant e (if_any m))) /\
  error_text e [VObject o] [] = Ok (full_text o e None) /\ error_text e [] [] = Ok (meant e None) /\
  (forall args kw x, error_text e args kw = Err x -> x = ETypeError).
Proof.
  intros e o m. split; [|split; [|split; [|split]]].
  - intros w I. apply named, I.
  - intros w I. apply anonymous, I.
  - unfold error_text, full_text, meant. destruct (dget defaults e); reflexivity.
  - unfold error_text, meant. destruct (dget defaults e); reflexivity.
  - intros args kw x H. apply (only_type_errors e args kw x H).
Qed.
Print Assumptions C179_text_partial.

(** Refuted also for the message None: without an object it is the whole text, and with one the
    error cannot be created. *)
Theorem C179_none_refuted : forall e o,
  error_text e [VNone; VNone] [] = Ok "None" /\ error_text e [] [("message", VNone)] = Ok "None" /\
  error_text e [VObject o; VNone] [] = Err ETypeError.
Proof. intros e o. repeat split. Qed.
Print Assumptions C179_none_refuted.

(** Holds at every place where an error is raised but ten. *)
Theorem C179_sites_partial : forall o s, In s sites -> ~ In (s_place s) ("kernel/implicit.py:52" :: without_object) ->
  read_at o s = Ok (full_text o (s_class s) (s_message s)).
Proof. intros o s I N. apply sites_ok; assumption. Qed.
Print Assumptions C179_sites_partial.

(** At these ten places no error of kerch names the object: at one the error cannot be made and the
    user reads a [TypeError], at the others the text is that of the class of the error, even at the
    two where a message is written. *)
Theorem C179_refuted : forall o s, In s sites ->
  (s_place s = "kernel/implicit.py:52" -> read_at o s = Err ETypeError) /\
  (In (s_place s) without_object -> read_at o s = Ok (meant (s_class s) None)) /\
  (s_place s = "kernel/_base_kernel.py:119" -> read_at o s = Ok "The model has not been initialized yet." /\ s_message s = Some "The sample has not been initialized yet.") /\
  (s_place s = "kernel/network/explicit_nn.py:113" -> read_at o s = Ok "" /\ s_message s <> None).
Proof.
  intros o s I. split; [|split; [|split]].
  - intro E. unfold sites in I. cbn [In] in I. repeat (destruct I as [<- | I]; [try discriminate E; reflexivity|]). destruct I.
  - intro H. apply sites_anonymous; assumption.
  - intro E. unfold sites in I. cbn [In] in I. repeat (destruct I as [<- | I]; [try discriminate E; split; reflexivity|]). destruct I.
  - intro E. unfold sites in I. cbn [In] in I. repeat (destruct I as [<- | I]; [try discriminate E; (split; [reflexivity | cbn; discriminate])|]). destruct I.
Qed.
Print Assumptions C179_refuted.

Example C179_nontrivial :
  map (fun s => is_ok (read_at "RBF" s)) sites <> map (fun _ => true) sites /\
  error_text "NotInitializedError" [] [("cls", VObject "KPCA")] = Ok "[KPCA] The model has not been initialized yet." /\
  error_text "KerchError" [] [("cls", VObject "RKM"); ("message", VText "No level.")] = Ok "[RKM] No level." /\
  error_text "KerchError" [VText "No level."] [] = Ok "" /\
  error_text "ExplicitError" [] [("cms", VObject "RBF")] = Err ETypeError /\
  error_text "KerchError" [VNone; VNone; VNone] [] = Err ETypeError /\
  error_text "KerchError" [VNone] [("cls", VNone)] = Err ETypeError /\
  List.length (filter (fun s => smem (s_place s) without_object) sites) = 9.
Proof. repeat match goal with |- _ /\ _ => split end; try (vm_compute; reflexivity). vm_compute. discriminate. Qed.
Print Assumptions C179_nontrivial.
