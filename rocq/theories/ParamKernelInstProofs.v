(** Random features, the polynomial kernel and resetting kernels. *)
From Verif Require Import Base BaseProofs Cache CacheSpec CacheProofs CacheReader CacheReaderProofs ParamKernel ParamKernelSpec ParamKernelProofs ParamKernelInst ParamKernelInstSpec.
Open Scope string_scope.

Section RandomFeatures.
  Context {W Sg X Mx Pi : Type}.
  Variable nrows : W -> nat.
  Variable fits : W -> bool.
  Variable act : W -> nat -> Sg -> X -> Mx.
  Variable mul : Mx -> Mx -> Mx.
  Variable pinv : W -> Pi.
  Variable inv : nat -> Pi -> Sg -> Mx -> Mx.
  Variable data : nat -> X.
  Variable sample : X.
  Notation step := (rf_step fits act mul pinv inv data sample).
  Notation run := (rf_run fits act mul pinv inv data sample).
  Notation shows := (rf_shows nrows act mul pinv inv data sample).

  Lemma rf_step_par s o :
    p_par (snd (step s o)) = match o with PAssign a => snd (rf_assign fits a (p_par s)) | _ => p_par s end.
  Proof.
    destruct o as [a|l|p| | |x|x|m]; unfold rf_step; cbn [pstep].
    - destruct (rf_assign fits a (p_par s)) as [[r reset] t]. reflexivity.
    - reflexivity.
    - reflexivity.
    - unfold reading. destruct (read_Phi _ _ _ _ _ _ _ _); reflexivity.
    - unfold reading. destruct (ParamKernel.read_K _ _ _ _ _ _ _ _ _ _ _); reflexivity.
    - unfold reading. destruct (read_phi _ _ _ _ _ _ _ _ _ _); reflexivity.
    - unfold reading. destruct (read_k _ _ _ _ _ _); reflexivity.
    - unfold reading. destruct (read_preimage _ _ _ _ _ _ _); reflexivity.
  Qed.

  Lemma rf_history_careful os : forall s,
    rf_history nrows fits (p_par s) os ->
    careful (fun _ => true) false (rf_feat act) (rf_kfun act mul) (rf_gram mul) (rf_aux pinv) rf_key rf_args
            (rf_pre inv) (rf_assign fits) data sample s os.
  Proof.
    induction os as [|o os IH]; intros s; cbn [rf_history careful]; [auto|]. intros [Ho Hos].
    split.
    - destruct o as [a|l|p| | |x|x|m]; try exact I; [|exact Ho].
      destruct a as [w|n w|sg|w]; try (right; exact (proj2 Ho)).
      left. unfold clean_assignment. cbn. right. exists false. split; [reflexivity|]. right. left. reflexivity.
    - apply IH. rewrite <- rf_step_par in Hos. exact Hos.
  Qed.

  (** The count attribute follows the weights along such histories. *)
  Lemma rf_history_shows os : forall s,
    rf_history nrows fits (p_par s) os -> rf_num (p_par s) = Some (nrows (rf_w (p_par s))) ->
    Forall (shows_parameters (fun _ => true) false (rf_feat act) (rf_kfun act mul) (rf_gram mul) (rf_aux pinv)
              (rf_pre inv) data sample) (fst (run s os)) ->
    Forall shows (fst (run s os)).
  Proof.
    induction os as [|o os IH]; intros s Hh Hn; [constructor|].
    unfold rf_run in *. cbn [prun]. cbn [rf_history] in Hh. destruct Hh as [Ho Hos].
    pose proof (rf_step_par s o) as Hp. unfold rf_step in Hp.
    destruct (pstep _ _ _ _ _ _ _ _ _ _ _ _ s o) as [r s'] eqn:E. cbn [snd] in Hp.
    assert (Hn' : rf_num (p_par s') = Some (nrows (rf_w (p_par s')))).
    { rewrite Hp. destruct o as [a|l|p| | |x|x|m]; try exact Hn.
      destruct a as [w|n w|sg|w]; cbn.
      - destruct (fits w); cbn; [|exact Hn]. now rewrite Hn, (proj1 Ho).
      - now rewrite (proj1 Ho).
      - exact Hn.
      - now rewrite Hn, (proj1 Ho). }
    rewrite <- Hp in Hos. specialize (IH s' Hos Hn').
    destruct (prun _ _ _ _ _ _ _ _ _ _ _ _ s' os) as [rs s'']. cbn [fst] in *.
    intros HF. inversion HF as [|? ? H1 H2]; subst. constructor; [|now apply IH].
    clear - H1 Hn. destruct o as [a|l|p| | |x|x|m]; cbn in *; try exact I;
      destruct r as [r|r]; try contradiction; subst r;
      unfold true_feat, ParamKernelSpec.true_K, true_feat, rf_kfun, rf_feat, rf_value, rf_pre, rf_aux, rf_count, rf_map, rf_gram;
      cbn; rewrite ?Hn; reflexivity.
  Qed.

  Lemma rf_careful_run n w sg level os : nrows w = n -> known_level (Some level) ->
    rf_history nrows fits (rf_new (GivenNumber n w) sg) os ->
    Forall shows (fst (run (new_param (rf_new (GivenNumber n w) sg) level) os)).
  Proof.
    intros Hw Hl Hh. apply rf_history_shows; [exact Hh|cbn; now rewrite Hw|].
    apply careful_run.
    - repeat split; discriminate.
    - cbn. auto 6.
    - left. now apply new_param_inv.
    - now apply rf_history_careful.
  Qed.

  (** Without reset, all held readings ignore the new weights. *)
  Lemma rf_stale n w sg w' :
    fits w' = true ->
    let s := new_param (rf_new (GivenNumber n w) sg) (LStr "normal") in
    map snd (fst (run s [PReadPhi; PReadK; PAssign (RFWeights w'); PReadPhi; PReadK; PReadphi None])) =
    [POut (Ok (act w n sg sample)); POut (Ok (mul (act w n sg sample) (act w n sg sample))); PUnit (Ok tt);
     POut (Ok (act w n sg sample)); POut (Ok (mul (act w n sg sample) (act w n sg sample)));
     POut (Ok (act w' n sg sample))].
  Proof. intros Hf. cbn. rewrite Hf. reflexivity. Qed.

  Lemma rf_stale_oos n w sg w' x m :
    fits w' = true ->
    let s := new_param (rf_new (GivenNumber n w) sg) (LStr "normal") in
    map snd (fst (run s [PReadphi (Some x); PPreimage m; PAssign (RFWeights w'); PReadphi (Some x); PPreimage m;
                         PAssign (RFStep w'); PPreimage m])) =
    [POut (Ok (act w n sg (data x))); POut (Ok (inv n (pinv w) sg m)); PUnit (Ok tt);
     POut (Ok (act w n sg (data x))); POut (Ok (inv n (pinv w) sg m));
     PUnit (Ok tt); POut (Ok (inv n (pinv w) sg m))].
  Proof. intros Hf. cbv -[Nat.eqb]. rewrite Hf, !Nat.eqb_refl. reflexivity. Qed.

  (** The scale keeps the old number of weights, even after a reset. *)
  Lemma rf_wrong_scale n w sg w' level : known_level (Some level) ->
    fits w' = true ->
    let s := new_param (rf_new (GivenNumber n w) sg) level in
    map snd (fst (run s [PAssign (RFWeights w'); PReset true; PReadphi None])) =
    [PUnit (Ok tt); PUnit (Ok tt); POut (Ok (act w' n sg sample))].
  Proof.
    intros Hl Hf. destruct level as [z|name].
    - cbv -[Z.leb]. rewrite Hf. destruct (Z.leb 0 z); reflexivity.
    - cbn in Hl. destruct Hl as [<-|[<-|[<-|[<-|[<-|[]]]]]]; cbv; now rewrite Hf.
  Qed.

  (** Weights given to the constructor cannot be used. *)
  Lemma rf_given_weights_fail w sg :
    let s := new_param (rf_new (GivenWeights w) sg) (LStr "normal") in
    map snd (fst (run s [PReadPhi; PReadK; PReadphi None; PReadk None])) =
    [POut (Err EAttributeError); POut (Err EAttributeError); POut (Err EAttributeError); POut (Err EAttributeError)].
  Proof. reflexivity. Qed.
End RandomFeatures.

Section Polynomial.
  Context {F X Mx : Type}.
  Variable natural : F -> bool.
  Variable rootable : F -> bool.
  Variable pfeat : F -> F -> X -> Mx.
  Variable pker : F -> F -> X -> X -> Mx.
  Variable gram : Mx -> Mx.
  Variable trainable : bool.
  Variable data : nat -> X.
  Variable sample : X.
  Notation step := (poly_step natural rootable pfeat pker gram trainable data sample).
  Notation run := (poly_run natural rootable pfeat pker gram trainable data sample).

  Lemma poly_assign_tensor s v :
    fst (step s (PAssign (PolyAlpha (AsTensor v)))) = PUnit (Ok tt) /\
    p_par (snd (step s (PAssign (PolyAlpha (AsTensor v))))) = PolyPar (poly_alpha (p_par s)) v.
  Proof. split; reflexivity. Qed.
  Lemma poly_assign_number s v :
    fst (step s (PAssign (PolyAlpha (AsNumber v)))) = PUnit (Err ETypeError) /\
    p_par (snd (step s (PAssign (PolyAlpha (AsNumber v))))) = p_par s.
  Proof. split; reflexivity. Qed.
  Lemma poly_assign_beta s v : step s (PAssign (PolyBeta v)) = (PUnit (Err EAttributeError), s).
  Proof. destruct s. reflexivity. Qed.

  (** The closure is kept: the feature map does not follow the offset. *)
  Lemma poly_stale a b v :
    trainable = false -> natural a = true -> rootable b = true ->
    let s := new_param (PolyPar a b) (LStr "normal") in
    map snd (fst (run s [PReadPhi; PAssign (PolyAlpha (AsTensor v)); PReadPhi; PReadK; PReadk None])) =
    [POut (Ok (pfeat a b sample)); PUnit (Ok tt); POut (Ok (pfeat a b sample));
     POut (Ok (gram (pfeat a b sample))); POut (Ok (pker a v sample sample))].
  Proof. intros Ht Ha Hb. subst trainable. do 4 (cbv; rewrite ?Ha, ?Hb). reflexivity. Qed.

  Lemma poly_shows_of e : shows_parameters (fun t => natural (poly_alpha t)) true (poly_feat pfeat) (poly_kfun pker) gram
      (poly_aux natural rootable) poly_pre data sample e ->
    poly_shows natural rootable pfeat pker gram data sample e.
  Proof.
    destruct e as [[t o] r]. destruct o as [a|l|p| | |x|x|m]; cbn; try (intros; exact I).
    all: try (destruct r as [r|r]; try contradiction; intros ->; unfold poly_aux, poly_pre, poly_map;
      destruct (natural (poly_alpha t)); [|eexists; reflexivity]; destruct (rootable (poly_beta t)); eexists; reflexivity).
    all: destruct r as [r|r]; try contradiction; intros ->;
      unfold ParamKernelSpec.true_K, true_feat, poly_map, poly_aux, poly_kfun, poly_feat; cbn;
      try reflexivity; destruct (natural (poly_alpha t)); cbn; try reflexivity;
      destruct (rootable (poly_beta t)); reflexivity.
  Qed.

  Lemma poly_careful os : forall s, levels_known os ->
    (trainable = true \/ reset_after_assignment os) ->
    careful (fun t => natural (poly_alpha t)) true (poly_feat pfeat) (poly_kfun pker) gram
      (poly_aux natural rootable) poly_key (poly_args trainable) poly_pre poly_assign data sample s os.
  Proof.
    induction os as [|o os IH]; intros s Hl Hr; cbn [careful]; [auto|].
    inversion Hl as [|? ? Ho Hos]; subst. split.
    - destruct o as [a|l|p| | |x|x|m]; try exact I; [|exact Ho].
      destruct Hr as [Ht|Hr]; [|right; exact (proj1 Hr)]. left. unfold clean_assignment.
      destruct a as [[v|v]|v]; cbn; [|now left|now left].
      right. exists false. split; [reflexivity|]. right. right. left. exact Ht.
    - apply IH; [exact Hos|]. destruct Hr as [Ht|Hr]; [now left|right]. destruct o; try exact Hr. exact (proj2 Hr).
  Qed.

  Lemma poly_run_shows a b level os : known_level (Some level) -> levels_known os ->
    (trainable = true \/ reset_after_assignment os) ->
    Forall (poly_shows natural rootable pfeat pker gram data sample)
           (fst (run (new_param (PolyPar a b) level) os)).
  Proof.
    intros Hl Hk Hr. eapply Forall_impl; [exact poly_shows_of|].
    apply careful_run.
    - repeat split; discriminate.
    - cbn. auto 6.
    - left. now apply new_param_inv.
    - now apply poly_careful.
  Qed.
End Polynomial.

Section Resetting.
  Context {T X Mx : Type}.
  Variable explicit : T -> bool.
  Variable feat : T -> X -> result Mx.
  Variable kfun : T -> X -> X -> result Mx.
  Variable gram : Mx -> Mx.
  Variable data : nat -> X.
  Variable sample : X.

  Lemma reset_run_shows t level os : known_level (Some level) -> levels_known os ->
    Forall (shows_parameters explicit false (fun t (_ : option Empty_set) x => feat t x) kfun gram no_aux no_pre
              data sample)
           (fst (reset_run explicit feat kfun gram data sample (new_param t level) os)).
  Proof.
    intros Hl Hk. apply careful_run.
    - repeat split; discriminate.
    - cbn. auto 6.
    - left. now apply new_param_inv.
    - generalize (new_param (Mx := Mx) (Ax := Empty_set) t level). clear t Hl.
      induction os as [|o os IH]; intros s; cbn [careful]; [auto|].
      inversion Hk as [|? ? Ho Hos]; subst. split; [|now apply IH].
      destruct o as [[p f]|l|p| | |x|x|m]; try exact I; [|exact Ho]. left. unfold clean_assignment. cbn.
      right. exists p. split; [reflexivity|]. right. left. reflexivity.
  Qed.
End Resetting.
