(** C188 *)
From Coq Require Import Permutation.
From Verif Require Import Base Classes Abstract AbstractSpec Options OptionsSpec OptionsProofs DocumentedSpec DocumentedProofs.
Open Scope nat_scope.
Open Scope string_scope.
Open Scope list_scope.

(** C188 (full statement, false: "every option of the documentation is read by the class that
    documents it or one that it extends, and has the announced default").  It holds for all but
    three names, and the default except for the two dimensions of the sample.  For every kernel, alone or in a
    level, and all options. *)
Theorem C188_read_partial : forall mro kw out c n d, In mro objects -> construct layer_of mro kw = Ok out ->
  In c mro -> documented c n d -> ~ In (c, n) misnamed ->
  exists x v, In x (from c mro) /\ In (x, n, v) out /\
    (overruled mro x n = false ->
       (forall w, dget kw n = Some w -> v = w) /\
       (dget kw n = None -> forall w, d = Some w -> ~ dimension n -> v = w)).
Proof.
  intros mro kw out c n d I H J D M. destruct (doc_read mro c n d I J D M) as [x [X1 [X2 X3]]].
  destruct (checked mro I) as [ND [RO [_ [CH _]]]]. pose proof (from_In c mro x X1) as X0.
  assert (R : In (x, n) (map fst out)).
  { apply (Permutation_in _ (Permutation_sym (everything _ _ _ _ RO H))). unfold all_reads. apply in_flat_map. exists x. split; [exact X0|].
    apply in_map_iff. exists n. split; [reflexivity | exact X2]. }
  apply in_map_iff in R. destruct R as [[[x' n'] v] [E R]]. cbn [fst] in E. injection E as -> ->.
  exists x, v. split; [exact X1|]. split; [exact R|]. intro O.
  destruct (chain _ _ _ _ ND RO H x n v R) as [_ [_ V]]. destruct (CH x n X0 X2) as [C1 [C2 C3]].
  rewrite C1 in V. specialize (V O C2). rewrite C3 in V. split.
  - intros w W. rewrite W in V. injection V as ->. reflexivity.
  - intros N w W DI. rewrite N, (X3 O w W DI) in V. injection V as ->. reflexivity.
Qed.
Print Assumptions C188_read_partial.

(** The three names have no effect at all, whatever value is given. *)
Theorem C188_misnamed_refuted : forall c n, In (c, n) misnamed ->
  (exists d, documented c n d) /\
  forall mro kw kw', In mro objects -> same_but n kw kw' -> construct layer_of mro kw = construct layer_of mro kw'.
Proof.
  intros c n M. split.
  - destruct M as [M|[M|[M|[]]]]; injection M as <- <-.
    + exists (Some VFalse). eexists. split; [do 2 right; left; reflexivity | do 4 right; left; reflexivity].
    + exists (Some VTrue). eexists. split; [do 11 right; left; reflexivity | do 2 right; left; reflexivity].
    + exists (Some VFalse). eexists. split; [do 16 right; left; reflexivity | do 2 right; left; reflexivity].
  - intros mro kw kw' I S. destruct (misnamed_other c n M) as [N1 N2].
    apply (unread layer_of n mro kw kw' N1 N2); [|exact S]. exact (misnamed_unread mro c n I M).
Qed.
Print Assumptions C188_misnamed_refuted.

(** A dimension of the sample that is not given is [None] and not one. *)
Theorem C188_dimensions_refuted : forall n, dimension n ->
  documented "Sample" n (Some (VOther "1")) /\
  forall mro kw out, In mro objects -> In "Sample" mro -> construct layer_of mro kw = Ok out -> dget kw n = None ->
    In ("Sample", n, VNone) out.
Proof.
  intros n DI. split.
  - eexists. split; [do 7 right; left; reflexivity|]. destruct DI as [-> | ->]; [do 2 right; left | do 3 right; left]; reflexivity.
  - intros mro kw out I J H N. destruct (checked mro I) as [ND [RO [_ [CH _]]]].
    assert (X2 : In n (names_read (layer_of "Sample"))) by (destruct DI as [-> | ->]; vm_compute; tauto).
    assert (R : In ("Sample", n) (map fst out)).
    { apply (Permutation_in _ (Permutation_sym (everything _ _ _ _ RO H))). unfold all_reads. apply in_flat_map. exists "Sample". split; [exact J|].
      apply in_map_iff. exists n. split; [reflexivity | exact X2]. }
    apply in_map_iff in R. destruct R as [[[x' n'] v] [E R]]. cbn [fst] in E. injection E as -> ->.
    destruct (chain _ _ _ _ ND RO H "Sample" n v R) as [_ [_ V]]. destruct (CH "Sample" n J X2) as [C1 [C2 C3]].
    assert (O : overruled mro "Sample" n = false) by (destruct DI as [-> | ->]; reflexivity).
    rewrite C1 in V. specialize (V O C2). rewrite C3, N in V.
    assert (L : documented_default mro "Sample" n = Some VNone) by (destruct DI as [-> | ->]; reflexivity).
    rewrite L in V. injection V as ->. exact R.
Qed.
Print Assumptions C188_dimensions_refuted.

Example C188_nontrivial :
  match kerch_level "LSSVM" "Sigmoid" None with
  | Ok mro => In mro objects /\ In "LSSVM" mro /\ In "Sample" mro /\ In "Sigmoid" mro /\
      match construct layer_of mro [("eta", VOther "0.5"); ("params", VTrue)] with
      | Ok out => In ("_Level", "eta", VOther "0.5") out /\ In ("LSSVM", "gamma", VOther "1.0") out /\ In ("Sigmoid", "params_trainable", VFalse) out
      | Err _ => False end
  | Err _ => False end.
Proof.
  destruct (kerch_level "LSSVM" "Sigmoid" None) as [mro|e] eqn:E; [|vm_compute in E; discriminate E].
  split; [|vm_compute in E; injection E as <-; vm_compute; tauto].
  unfold objects. apply in_flat_map. exists (Ok mro). split; [|left; reflexivity]. apply in_or_app. right. rewrite <- E.
  unfold level_objects. apply in_flat_map. exists "LSSVM". split; [right; left; reflexivity|].
  apply in_flat_map. exists "Sigmoid". split; [do 2 right; left; reflexivity|]. left. reflexivity.
Qed.
Print Assumptions C188_nontrivial.
