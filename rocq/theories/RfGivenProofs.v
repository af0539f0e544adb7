(** Random features constructed with their weights. *)
From Verif Require Import Base BaseProofs Cache CacheSpec CacheProofs CacheReader CacheReaderProofs ParamKernel ParamKernelSpec ParamKernelProofs ParamKernelInst ParamKernelInstSpec ParamKernelInstProofs RfGivenSpec.
Open Scope string_scope.

Section Given.
  Context {W Sg X Mx Pi : Type}.
  Variable nrows : W -> nat.
  Variable fits : W -> bool.
  Variable act : W -> nat -> Sg -> X -> Mx.
  Variable mul : Mx -> Mx -> Mx.
  Variable pinv : W -> Pi.
  Variable inv : nat -> Pi -> Sg -> Mx -> Mx.
  Variable data : nat -> X.
  Variable sample : X.
  Notation step := (rf_step fits act mul pinv inv data sample).
  Notation run := (rf_run fits act mul pinv inv data sample).
  Notation shows := (rf_shows nrows act mul pinv inv data sample).

  (** Nothing but empty trees and pseudo-inverses is ever stored. *)
  Definition bare (key : string) (p : bool) (v : pval Mx Pi) : Prop :=
    ((key = "kernel_explicit_transform" \/ key = "kernel_implicit_transform") /\
     exists l, v = PTree l None [] /\ numeric l) \/
    (key = rf_key /\ exists a, v = PAux a).

  Lemma tree_bare key : key = "kernel_explicit_transform" \/ key = "kernel_implicit_transform" ->
    gives_some bare (tree key) (fun v => exists l, v = PTree l None [] /\ numeric l).
  Proof.
    intros Hkey. unfold tree. apply gives_some_get; [cbn; auto 6| | |].
    - intros c Hc. cbn. split; [|auto]. eexists. split; [reflexivity|].
      destruct Hc as (_ & Hlv & _). eexists. split; [reflexivity|]. destruct Hlv as [n ->]. now exists n.
    - intros p v [[_ H]|[E _]]; [exact H|]. destruct Hkey as [-> | ->]; discriminate E.
    - intros v H. now left.
  Qed.

  Lemma gives_err {A B} ok (m : reader (pval Mx Pi) A) (f : A -> reader (pval Mx Pi) B) e :
    gives ok m (Err e) -> gives ok (rbind m f) (Err e).
  Proof. intros H. exact (gives_bind ok m f (Err e) (fun _ => Err e) H ltac:(discriminate)). Qed.

  Lemma tree_sample_bare key m e : key = "kernel_explicit_transform" \/ key = "kernel_implicit_transform" ->
    gives bare m (Err e) -> gives bare (tree_sample key m) (Err e).
  Proof.
    intros Hkey Hm. unfold tree_sample. eapply gives_bind_some; [exact (tree_bare key Hkey)|].
    intros v (l & -> & Hl). now apply gives_err.
  Qed.

  Lemma tree_oos_bare key x m e : key = "kernel_explicit_transform" \/ key = "kernel_implicit_transform" ->
    (forall z, gives bare (m z) (Err e)) -> gives bare (tree_oos data sample key x m) (Err e).
  Proof.
    intros Hkey Hm. unfold tree_oos. eapply gives_bind_some; [exact (tree_bare key Hkey)|].
    intros v (l & -> & Hl). destruct x as [x|]; [|apply Hm]. cbn [oget]. now apply gives_err.
  Qed.

  Lemma get_bare key lk (f : reader (pval Mx Pi) (pval Mx Pi)) e : key = "phi" \/ key = "K" ->
    gives bare f (Err e) -> gives bare (rbind (rget key (key_args lk) f) (fun v => rret (as_mat v))) (Err e).
  Proof.
    intros Hkey Hf. apply gives_err. apply gives_get; [cbn; auto 6|exact Hf| |discriminate].
    intros p v [[[E|E] _]|[E _]]; destruct Hkey as [-> | ->]; discriminate E.
  Qed.

  Lemma aux_bare (t : rf_par W Sg) :
    gives_some bare (read_aux (Mx := Mx) (rf_aux pinv) rf_key rf_args t) (fun _ => True).
  Proof.
    assert (G : gives_some bare (rget rf_key rf_args (rret (bind (rf_aux pinv t) (fun a => Ok (PAux (Mx := Mx) a)))))
                  (fun v => exists a, v = PAux a)).
    { apply gives_some_get; [cbn; auto 6| | |].
      - intros c Hc. cbn. split; [|auto]. eexists. split; [reflexivity|]. eauto.
      - intros p v [[[E|E] _]|[_ H]]; [discriminate E|discriminate E|exact H].
      - intros v H. now right. }
    intros c Hc. destruct (G c Hc) as ((v & E & a & Ea) & Hc' & L). unfold read_aux, rbind.
    destruct (rget _ _ _ c) as [r c']. cbn [fst snd] in *. subst r v. cbn. eauto.
  Qed.

  (** A reading fails and leaves the cache bare. *)
  Lemma bare_step s o :
    holds_right bare (p_cache s) -> rf_num (p_par s) = None ->
    (match o with PAssign (RFNum _ _) => False | PLevel l => known_level l | _ => True end) ->
    reading_fails (p_par s, o, fst (step s o)) /\ holds_right bare (p_cache (snd (step s o))) /\
    rf_num (p_par (snd (step s o))) = None.
  Proof.
    intros Hs Hn Ho.
    assert (Hv : forall x, rf_value act (p_par s) x = Err EAttributeError).
    { intros x. unfold rf_value, rf_count. now rewrite Hn. }
    assert (Hread : forall m : rf_par W Sg -> reader (pval Mx Pi) Mx, gives bare (m (p_par s)) (Err EAttributeError) ->
              fst (reading s m) = POut (Err EAttributeError) /\ holds_right bare (p_cache (snd (reading s m))) /\
              rf_num (p_par (snd (reading s m))) = None).
    { intros m Hm. unfold reading. destruct (Hm _ Hs) as (E & Hc & _).
      destruct (m (p_par s) (p_cache s)) as [r c]. cbn [fst snd p_cache p_par] in *. subst r. split; [reflexivity|]. split; [exact Hc|exact Hn]. }
    assert (Hf : forall x, gives bare (compute_feat false (rf_feat act) (rf_aux pinv) rf_key rf_args (p_par s) x)
                                 (Err EAttributeError)).
    { intros x. unfold compute_feat, rf_feat. rewrite Hv. apply gives_ret. }
    assert (HPhi : gives bare (read_Phi false (rf_feat act) (rf_aux pinv) rf_key rf_args sample (p_par s))
                              (Err EAttributeError)).
    { unfold read_Phi. apply get_bare; [now left|]. apply gives_err. apply tree_sample_bare; [now left|apply Hf]. }
    unfold rf_step. destruct o as [a|l|p| | |x|x|m]; cbn [pstep].
    - destruct a as [w|n w|sg|w]; [|contradiction| |]; cbn [rf_assign].
      + destruct (fits w); cbn [fst snd p_cache p_par rf_num]; (split; [exact I|split; [exact Hs|exact Hn]]).
      + cbn [fst snd p_cache p_par rf_num]. split; [exact I|]. split; [now apply reset_right|exact Hn].
      + cbn [fst snd p_cache p_par rf_num]. split; [exact I|]. split; [exact Hs|exact Hn].
    - cbn [fst snd p_cache p_par]. split; [exact I|]. split; [now apply set_level_right|exact Hn].
    - cbn [fst snd p_cache p_par]. split; [exact I|]. split; [now apply reset_right|exact Hn].
    - exact (Hread _ HPhi).
    - apply (Hread (ParamKernel.read_K _ _ _ _ _ _ _ _ _)). unfold ParamKernel.read_K. apply get_bare; [now right|].
      now apply gives_err.
    - apply (Hread (fun t => read_phi false (rf_feat act) (rf_aux pinv) rf_key rf_args data sample t x)).
      unfold read_phi. apply tree_oos_bare; [now left|exact Hf].
    - apply (Hread (fun t => read_k (rf_kfun act mul) data sample t x)).
      unfold read_k. apply tree_oos_bare; [now right|]. intros z. unfold rf_kfun. rewrite Hv. apply gives_ret.
    - apply (Hread (fun t => read_preimage (rf_aux pinv) rf_key rf_args (rf_pre inv) t m)).
      unfold read_preimage. eapply gives_bind_some; [apply aux_bare|]. intros a _.
      unfold rf_pre, rf_count. rewrite Hn. apply gives_ret.
  Qed.

  Lemma bare_run os : forall s,
    holds_right bare (p_cache s) -> rf_num (p_par s) = None -> number_not_assigned os ->
    Forall reading_fails (fst (run s os)) /\ holds_right bare (p_cache (snd (run s os))).
  Proof.
    induction os as [|o os IH]; intros s Hs Hn Hos; [split; [constructor|exact Hs]|].
    apply Forall_cons_iff in Hos. destruct Hos as [Ho Hos].
    destruct (bare_step s o Hs Hn Ho) as (H1 & H2 & H3). unfold rf_run, rf_step in *. cbn [prun].
    destruct (pstep _ _ _ _ _ _ _ _ _ _ _ _ s o) as [r s']. cbn [fst snd] in *.
    destruct (IH s' H2 H3 Hos) as [F1 F2]. destruct (prun _ _ _ _ _ _ _ _ _ _ _ _ s' os) as [rs s''].
    cbn [fst snd] in *. split; [now constructor|exact F2].
  Qed.

  Lemma given_bare w sg level : known_level (Some level) ->
    holds_right bare (p_cache (new_param (rf_new (GivenWeights w) sg) level : pstate (rf_par W Sg) Mx Pi)).
  Proof. intros H. now apply init_right. Qed.

  Lemma given_run w sg level os : known_level (Some level) -> number_not_assigned os ->
    Forall reading_fails (fst (run (new_param (rf_new (GivenWeights w) sg) level) os)).
  Proof. intros Hl Hos. apply bare_run; [now apply given_bare|reflexivity|exact Hos]. Qed.

  Lemma given_then_number w sg level os n w' os' : known_level (Some level) -> number_not_assigned os ->
    nrows w' = n ->
    let s := snd (run (new_param (rf_new (GivenWeights w) sg) level) os) in
    rf_history nrows fits (RFPar w' (Some n) (rf_sigma (p_par s))) os' ->
    Forall shows (fst (run s (PAssign (RFNum n w') :: PReset true :: os'))).
  Proof.
    intros Hl Hos Hw s Hh.
    destruct (bare_run os _ (given_bare w sg level Hl) eq_refl Hos) as [_ Hb]. fold s in Hb.
    unfold rf_run. cbn [prun pstep rf_assign p_par p_cache].
    set (s' := PState _ _ : pstate (rf_par W Sg) Mx Pi).
    assert (G : Forall shows (fst (run s' os'))).
    { apply rf_history_shows; [exact Hh|cbn; now rewrite Hw|]. apply careful_run.
      - repeat split; discriminate.
      - cbn. auto 6.
      - left. unfold PInv, s'. cbn [p_cache p_par]. apply reset_full_inv. unfold Sane. eapply right_mono; [|exact Hb]. auto.
      - now apply (rf_history_careful nrows). }
    unfold rf_run in G. destruct (prun _ _ _ _ _ _ _ _ _ _ _ _ s' os') as [rs s'']. cbn [fst] in *.
    constructor; [exact I|]. constructor; [exact I|exact G].
  Qed.
End Given.
