(** C154, C155: the hyperparameters that are reported. *)
From Verif Require Import Base BaseProofs Classes ClassesSpec ClassesProofs Hparams HparamsSpec HparamsProofs.
Open Scope nat_scope.
Open Scope string_scope.
Open Scope list_scope.

(** * C154 *)
(** In general, for all classes: a report succeeds exactly when every entry can be read and the
    last class is reached, and every key has the value of the last class that writes it. *)
Theorem C154_exact : forall (V : Type) (tbl : which -> string -> option listing) (read : string -> result V) (l : list string) (w : which),
  let '(es, e) := chain tbl None l w in
  ((exists d, hparams tbl read None l w = Ok (ADict d)) <-> e = End_ok /\ readable read es) /\
  (forall d k, hparams tbl read None l w = Ok (ADict d) ->
     match last_source es k with
     | Some s => exists v, read_source read s = Ok v /\ dget d k = Some v
     | None => dget d k = None
     end).
Proof.
  intros V tbl read l w. pose proof (hparams_when tbl read l w) as W. pose proof (hparams_ok tbl read l w) as O.
  destruct (chain tbl None l w) as [es e]. cbn [fst snd] in *. split; [exact W|].
  intros d k H. exact (proj2 (proj2 (O d H)) k).
Qed.
Print Assumptions C154_exact.
(** The kernels that report their name, on their own and in levels. *)
Theorem C154_named_partial : forall (V : Type) (read : string -> result V) n name fs obj d, In (n, name) kernel_names ->
  is_kernel n fs obj \/ (exists b, is_level b n fs obj) -> report read fs obj HFixed = Ok (ADict d) -> dget d "Kernel" = Some (HName name).
Proof.
  intros V read n name fs obj d I K H. destruct (hparams_ok _ _ _ _ _ H) as [_ [_ Q]]. specialize (Q "Kernel").
  assert (A : forallb (fun e => match last_source (fst (chain (kerch_table []) None (counted (fst e)) HFixed)) "Kernel",
    last_source (fst (chain (kerch_table []) None (counted_level true (fst e)) HFixed)) "Kernel",
    last_source (fst (chain (kerch_table []) None (counted_level false (fst e)) HFixed)) "Kernel" with
    Some (Name a), Some (Name b), Some (Name c) => String.eqb a (snd e) && String.eqb b (snd e) && String.eqb c (snd e) | _, _, _ => false end && smem (fst e) all_kernels) kernel_names = true) by (vm_compute; reflexivity).
  rewrite forallb_forall in A. specialize (A _ I). cbn [fst snd] in A. apply andb_true_iff in A. destruct A as [A M]. apply smem_In in M.
  destruct (last_source (fst (chain (kerch_table []) None (counted n) HFixed)) "Kernel") as [[a|a]|] eqn:E1; try discriminate A.
  destruct (last_source (fst (chain (kerch_table []) None (counted_level true n) HFixed)) "Kernel") as [[b|b]|] eqn:E2; try discriminate A.
  destruct (last_source (fst (chain (kerch_table []) None (counted_level false n) HFixed)) "Kernel") as [[c|c]|] eqn:E3; try discriminate A.
  apply andb_true_iff in A. destruct A as [A A3]. apply andb_true_iff in A. destruct A as [A1 A2]. apply String.eqb_eq in A1, A2, A3. subst a b c.
  destruct K as [K|[b K]].
  - rewrite (is_kernel_chain n fs obj HFixed K), E1 in Q. destruct Q as [v [R G]]. injection R as <-. exact G.
  - rewrite (is_level_chain b n fs obj HFixed M K) in Q. destruct b; [rewrite E2 in Q | rewrite E3 in Q]; destruct Q as [v [R G]]; injection R as <-; exact G.
Qed.
Print Assumptions C154_named_partial.
(** The fixed values of a level are all reported, on these kernels. *)
Theorem C154_level_partial : forall (V : Type) (read : string -> result V) n fs obj d k,
  In n ["Exponential"; "RBF"; "Laplacian"; "Wasserstein"; "Sigmoid"; "ImplicitNN"; "SkewedChi2"; "AdditiveChi2"; "Indicator"; "Hat";
        "RFF"; "RFArcsinh"; "RFLReLU"; "RFHyperbola"; "RFStacked"] ->
  is_level true n fs obj -> report read fs obj HFixed = Ok (ADict d) -> In k level_keys -> dget d k <> None.
Proof.
  intros V read n fs obj d k I K H J. destruct (hparams_ok _ _ _ _ _ H) as [_ [_ Q]]. specialize (Q k).
  assert (A : forallb (fun n => forallb (fun k => match last_source (fst (chain (kerch_table []) None (counted_level true n) HFixed)) k with Some _ => true | None => false end) level_keys && smem n all_kernels)
    ["Exponential"; "RBF"; "Laplacian"; "Wasserstein"; "Sigmoid"; "ImplicitNN"; "SkewedChi2"; "AdditiveChi2"; "Indicator"; "Hat";
        "RFF"; "RFArcsinh"; "RFLReLU"; "RFHyperbola"; "RFStacked"] = true) by (vm_compute; reflexivity).
  rewrite forallb_forall in A. specialize (A _ I). apply andb_true_iff in A. destruct A as [A M]. apply smem_In in M.
  rewrite forallb_forall in A. specialize (A _ J).
  rewrite (is_level_chain true n fs obj HFixed M K) in Q. destruct (last_source _ k) as [s|]; [|discriminate A].
  destruct Q as [v [_ G]]. rewrite G. discriminate.
Qed.
Print Assumptions C154_level_partial.
(** A kernel derived from a named kernel reports the name of the latter: those of kerch ... *)
Theorem C154_derived_refuted : forall (V : Type) (read : string -> result V) n fs obj d, In n ["RBF"; "Laplacian"; "Wasserstein"] ->
  is_kernel n fs obj \/ (exists b, is_level b n fs obj) -> report read fs obj HFixed = Ok (ADict d) -> dget d "Kernel" = Some (HName "Exponential").
Proof.
  intros V read n fs obj d I K H. destruct (hparams_ok _ _ _ _ _ H) as [_ [_ Q]]. specialize (Q "Kernel").
  assert (G : forall c, (c = counted n \/ exists b, c = counted_level b n) -> last_source (fst (chain (kerch_table []) None c HFixed)) "Kernel" = Some (Name "Exponential")).
  { intros c C. simpl in I. destruct I as [<-|[<-|[<-|[]]]]; (destruct C as [->|[b ->]]; [|destruct b]); vm_compute; reflexivity. }
  assert (M : In n all_kernels) by (simpl in I; destruct I as [<-|[<-|[<-|[]]]]; apply smem_In; vm_compute; reflexivity).
  destruct K as [K|[b K]].
  - rewrite (is_kernel_chain n fs obj HFixed K), (G _ (or_introl eq_refl)) in Q. destruct Q as [v [R E]]. injection R as <-. exact E.
  - rewrite (is_level_chain b n fs obj HFixed M K), (G _ (or_intror (ex_intro _ b eq_refl))) in Q. destruct Q as [v [R E]]. injection R as <-. exact E.
Qed.
Print Assumptions C154_derived_refuted.
(** ... and those of users, in general, when written in the way of kerch. *)
Theorem C154_user_refuted : forall (V : Type) (tbl : which -> string -> option listing) (read : string -> result V) u mine l d r name,
  tbl HFixed u = Some (Listing true [("Kernel", Name mine)] (Some (u, HFixed))) ->
  hparams tbl read None l HFixed = Ok (ADict r) -> dget r "Kernel" = Some (HName name) ->
  hparams tbl read None (u :: l) HFixed = Ok (ADict d) -> dget d "Kernel" = Some (HName name).
Proof.
  intros V tbl read u mine l d r name T H N D. cbn [hparams] in D. rewrite T, String.eqb_refl, H in D. cbn in D. injection D as <-.
  pose proof (hparams_spec tbl read l None HFixed) as S. destruct (chain tbl None l HFixed) as [es e]. rewrite H in S. destruct S as [_ [_ [ND _]]].
  destruct (unpack_spec r [("Kernel", HName mine)] ND) as [_ B]; [repeat constructor; intros []|]. rewrite B, N. reflexivity.
Qed.
Print Assumptions C154_user_refuted.
(** Linear, Nystrom and network kernels give a method instead of a dictionary; the cosine kernel,
    and every level on one of the four, fails. *)
Theorem C154_method_refuted : forall (V : Type) (read : string -> result V),
  (forall n fs obj, In n ["Linear"; "Nystrom"; "ExplicitNN"] -> is_kernel n fs obj -> report read fs obj HFixed = Ok AMethod) /\
  (forall fs obj, is_kernel "Cosine" fs obj -> report read fs obj HFixed = Err ETypeError) /\
  (forall n fs obj, In n ["Linear"; "Nystrom"; "ExplicitNN"; "Cosine"] -> is_level true n fs obj ->
     exists x, report read fs obj HFixed = Err x /\ (is_ok (read "__class__.__name__") = true -> is_ok (read "eta") = true -> x = ETypeError)).
Proof.
  intros V read. split; [|split].
  - intros n fs obj I K. pose proof (hparams_spec (kerch_table fs) read obj None HFixed) as S. rewrite (is_kernel_chain n fs obj HFixed K) in S.
    assert (C : chain (kerch_table []) None (counted n) HFixed = ([], End_method)) by (simpl in I; destruct I as [<-|[<-|[<-|[]]]]; vm_compute; reflexivity).
    rewrite C in S. unfold report. destruct (hparams (kerch_table fs) read None obj HFixed) as [[d|]|x]; [discriminate (proj1 S) | reflexivity |].
    destruct S as [S|[_ S]]; discriminate S.
  - intros fs obj K. pose proof (hparams_spec (kerch_table fs) read obj None HFixed) as S. rewrite (is_kernel_chain "Cosine" fs obj HFixed K) in S.
    assert (C : chain (kerch_table []) None (counted "Cosine") HFixed = ([("Kernel", Name "Cosine")], End_error ETypeError)) by (vm_compute; reflexivity).
    rewrite C in S. unfold report. destruct (hparams (kerch_table fs) read None obj HFixed) as [[d|]|x]; [discriminate (proj1 S) | discriminate (proj1 S) |].
    destruct S as [S|[_ S]]; [discriminate S | injection S as <-; reflexivity].
  - intros n fs obj I K. pose proof (hparams_spec (kerch_table fs) read obj None HFixed) as S.
    assert (M : In n all_kernels) by (simpl in I; destruct I as [<-|[<-|[<-|[<-|[]]]]]; apply smem_In; vm_compute; reflexivity).
    rewrite (is_level_chain true n fs obj HFixed M K) in S.
    assert (C : exists es, chain (kerch_table []) None (counted_level true n) HFixed =
       (("Level type", Attr "__class__.__name__") :: ("Level eta", Attr "eta") :: es, End_error ETypeError) /\ (es = [] \/ es = [("Kernel", Name "Cosine")])).
    { simpl in I; destruct I as [<-|[<-|[<-|[<-|[]]]]]; vm_compute; eexists; (split; [reflexivity|]); first [left; reflexivity | right; reflexivity]. }
    destruct C as [es [C ES]]. rewrite C in S. unfold report. destruct (hparams (kerch_table fs) read None obj HFixed) as [[d|]|x]; [discriminate (proj1 S) | discriminate (proj1 S) |].
    exists x. split; [reflexivity|]. intros A B. destruct S as [S|[_ S]]; [|injection S as <-; reflexivity].
    simpl in S. destruct (read "__class__.__name__"); [|discriminate A]. destruct (read "eta"); [|discriminate B]. simpl in S.
    destruct ES as [-> | ->]; discriminate S.
Qed.
Print Assumptions C154_method_refuted.
(** Levels on the polynomial kernel and on the other distance kernels leave their dimensions out. *)
Theorem C154_dropped_refuted : forall (V : Type) (read : string -> result V) n fs obj d k,
  In n ["Polynomial"; "Uniform"; "Triangular"; "Epanechnikov"; "Quartic"; "Triweight"; "Tricube"; "Logistic"; "Silverman"] ->
  is_level true n fs obj -> report read fs obj HFixed = Ok (ADict d) ->
  In k ["Output dimension"; "Representation"; "Parameters trainable"; "Constraint"; "Input dimension"; "Trainable sample"; "Trainable sigma"] -> dget d k = None.
Proof.
  intros V read n fs obj d k I K H J. destruct (hparams_ok _ _ _ _ _ H) as [_ [_ Q]]. specialize (Q k).
  assert (A : forallb (fun n => forallb (fun k => match last_source (fst (chain (kerch_table []) None (counted_level true n) HFixed)) k with Some _ => false | None => true end)
      ["Output dimension"; "Representation"; "Parameters trainable"; "Constraint"; "Input dimension"; "Trainable sample"; "Trainable sigma"] && smem n all_kernels)
    ["Polynomial"; "Uniform"; "Triangular"; "Epanechnikov"; "Quartic"; "Triweight"; "Tricube"; "Logistic"; "Silverman"] = true) by (vm_compute; reflexivity).
  rewrite forallb_forall in A. specialize (A _ I). apply andb_true_iff in A. destruct A as [A M]. apply smem_In in M.
  rewrite forallb_forall in A. specialize (A _ J).
  rewrite (is_level_chain true n fs obj HFixed M K) in Q. destruct (last_source _ k) as [s|]; [discriminate A | exact Q].
Qed.
Print Assumptions C154_dropped_refuted.
(** A user's kernel on the RBF kernel; a principal component analysis on the polynomial one. *)
Example C154_nontrivial :
  (exists fs obj, is_kernel "RBF" fs obj /\ is_ok (report (fun a => Ok a) fs obj HFixed) = true /\ In "Mine" obj) /\
  (exists fs obj, is_level true "Polynomial" fs obj /\
     report (fun a => Ok a) fs obj HFixed = Ok (ADict [("Level type", HVal "__class__.__name__"); ("Level eta", HVal "eta"); ("Kernel", HName "Polynomial")])) /\
  (exists fs obj, is_level true "Linear" fs obj) /\ (exists fs obj, is_kernel "Cosine" fs obj).
Proof.
  split; [|split; [|split]].
  - eexists. eexists. split; [|split].
    + eapply (IsKernel "RBF" "f" (distance_kernel ["Mine"; "RBF"; "Exponential"]) None).
      * eapply (own_distance ["Mine"; "RBF"; "Exponential"] None ["Euclidean"; "DistanceSquared"]); [discriminate | vm_compute; reflexivity].
      * apply nodupb_sound. vm_compute. reflexivity.
      * vm_compute. reflexivity.
      * vm_compute. reflexivity.
      * vm_compute. reflexivity.
    + vm_compute. reflexivity.
    + apply smem_In. vm_compute. reflexivity.
  - eexists. eexists. split.
    + eapply (IsLevel true "Polynomial" "f" "g" ["KPCA"; "_KPCA"; "Level"; "_Level"] (kernel_class ["Polynomial"; "Implicit"; "Explicit"]) None).
      * apply (own_plain ["Polynomial"; "Implicit"; "Explicit"] None); [discriminate | intro Q; apply smem_In in Q; vm_compute in Q; discriminate Q].
      * apply nodupb_sound. vm_compute. reflexivity.
      * vm_compute. reflexivity.
      * vm_compute. reflexivity.
      * vm_compute. reflexivity.
      * vm_compute. reflexivity.
      * vm_compute. reflexivity.
    + vm_compute. reflexivity.
  - eexists. eexists.
    eapply (IsLevel true "Linear" "f" "g" ["KPCA"; "_KPCA"; "Level"; "_Level"] (kernel_class ["Linear"; "Explicit"]) None).
    + apply (own_plain ["Linear"; "Explicit"] None); [discriminate | intro Q; apply smem_In in Q; vm_compute in Q; discriminate Q].
    + apply nodupb_sound. vm_compute. reflexivity.
    + vm_compute. reflexivity.
    + vm_compute. reflexivity.
    + vm_compute. reflexivity.
    + vm_compute. reflexivity.
    + vm_compute. reflexivity.
  - eexists. eexists. eapply (IsKernel "Cosine" "f" (kernel_class ["Cosine"; "Linear"; "Explicit"]) None).
    + apply (own_plain ["Cosine"; "Linear"; "Explicit"] None); [discriminate | intro Q; apply smem_In in Q; vm_compute in Q; discriminate Q].
    + apply nodupb_sound. vm_compute. reflexivity.
    + vm_compute. reflexivity.
    + vm_compute. reflexivity.
    + vm_compute. reflexivity.
Qed.

(** * C155 *)
(** The kernels other than random features report exactly their trainable hyperparameters, on
    their own and in levels. *)
Theorem C155_kernel_partial : forall (V : Type) (read : string -> result V) n fs obj, In n all_kernels ->
  ~ In n ["RFF"; "RFArcsinh"; "RFLReLU"; "RFHyperbola"] -> is_kernel n fs obj \/ (exists b, is_level b n fs obj) ->
  (forall a, In a (trainable n) -> is_ok (read a) = true) ->
  exists d, report read fs obj HVariable = Ok (ADict d) /\
    (forall a, In a (trainable n) -> exists k v, read a = Ok v /\ dget d k = Some (HVal v)) /\
    (forall k x, dget d k = Some x -> exists a v, In a (trainable n) /\ read a = Ok v /\ x = HVal v).
Proof.
  intros V read n fs obj I NI K R.
  set (good := fun es : list (string * source) => nodupb (map fst es) && forallb (fun e => match snd e with Attr _ => true | Name _ => false end) es
     && (if list_eq_dec string_dec (map (fun e => match snd e with Attr a => a | Name a => a end) es) (trainable n) then true else false)).
  assert (C : exists es, chain (kerch_table fs) None obj HVariable = (es, End_ok) /\ good es = true).
  { assert (A : forallb (fun n => smem n ["RFF"; "RFArcsinh"; "RFLReLU"; "RFHyperbola"] ||
       forallb (fun c => let '(es, e) := chain (kerch_table []) None c HVariable in
         match e with End_ok => true | _ => false end && (nodupb (map fst es) && forallb (fun e => match snd e with Attr _ => true | Name _ => false end) es
         && (if list_eq_dec string_dec (map (fun e => match snd e with Attr a => a | Name a => a end) es) (trainable n) then true else false)))
       [counted n; counted_level true n; counted_level false n]) all_kernels = true) by (vm_compute; reflexivity).
    rewrite forallb_forall in A. specialize (A n I). rewrite (smem_out _ _ NI) in A. cbn [orb] in A. rewrite forallb_forall in A.
    assert (E : exists c, In c [counted n; counted_level true n; counted_level false n] /\ chain (kerch_table fs) None obj HVariable = chain (kerch_table []) None c HVariable).
    { destruct K as [K|[b K]].
      - exists (counted n). split; [left; reflexivity | apply is_kernel_chain; exact K].
      - exists (counted_level b n). split; [destruct b; [right; left | right; right; left]; reflexivity | apply is_level_chain; assumption]. }
    destruct E as [c [J E]]. specialize (A c J). cbn beta in A. rewrite E. destruct (chain (kerch_table []) None c HVariable) as [es e].
    exists es. apply andb_true_iff in A. destruct A as [A B]. split; [destruct e; [reflexivity | discriminate A | discriminate A] | exact B]. }
  destruct C as [es [C G]]. unfold good in G. apply andb_true_iff in G. destruct G as [G T]. apply andb_true_iff in G. destruct G as [ND AT].
  apply nodupb_sound in ND. rewrite forallb_forall in AT. destruct (list_eq_dec string_dec _ (trainable n)) as [TE|] in T; [|discriminate T].
  assert (X : exists d, report read fs obj HVariable = Ok (ADict d)).
  { apply hparams_when. rewrite C. cbn [fst snd]. split; [reflexivity|]. intros k a J. apply R. rewrite <- TE.
    apply (in_map (fun e : string * source => match snd e with Attr a => a | Name a => a end)) in J. exact J. }
  destruct X as [d X]. exists d. split; [exact X|]. destruct (hparams_ok _ _ _ _ _ X) as [_ [_ Q]]. rewrite C in Q. cbn [fst] in Q. split.
  - intros a J. rewrite <- TE in J. apply in_map_iff in J. destruct J as [[k s] [E J]]. pose proof (AT _ J) as S. destruct s as [m|b]; [discriminate S|]. cbn in E. subst b.
    exists k. specialize (Q k). assert (L : last_source es k = Some (Attr a)).
    { destruct (last_source es k) as [s'|] eqn:L; [|apply last_source_None in L; exfalso; apply L; apply (in_map fst) in J; exact J].
      apply last_source_In in L. clear - ND J L. induction es as [|[x y] es IH]; [contradiction J|]. cbn [map fst] in ND. apply NoDup_cons_iff in ND. destruct ND as [N0 ND].
      destruct J as [J|J], L as [L|L].
      - congruence.
      - exfalso. apply N0. injection J as -> _. apply (in_map fst) in L. exact L.
      - exfalso. apply N0. injection L as -> _. apply (in_map fst) in J. exact J.
      - exact (IH ND L J). }
    rewrite L in Q. destruct Q as [v [RV GV]]. cbn in RV. destruct (read a) as [v0|] eqn:RA; [|discriminate RV]. injection RV as <-. exists v0. split; [reflexivity | exact GV].
  - intros k x J. specialize (Q k). destruct (last_source es k) as [s|] eqn:L; [|rewrite Q in J; discriminate J].
    destruct Q as [v [RV GV]]. apply last_source_In in L. pose proof (AT _ L) as S. destruct s as [m|a]; [discriminate S|].
    cbn in RV. destruct (read a) as [v0|] eqn:RA; [|discriminate RV]. injection RV as <-. exists a. exists v0.
    split; [|split; [exact RA | congruence]]. rewrite <- TE. apply (in_map (fun e : string * source => match snd e with Attr a => a | Name a => a end)) in L. exact L.
Qed.
Print Assumptions C155_kernel_partial.
(** Random features report the number of their weights and not their bandwidth. *)
Theorem C155_features_refuted : forall (V : Type) (read : string -> result V) n fs obj d, In n ["RFF"; "RFArcsinh"; "RFLReLU"; "RFHyperbola"] ->
  is_kernel n fs obj \/ (exists b, is_level b n fs obj) -> report read fs obj HVariable = Ok (ADict d) ->
  trainable n = ["sigma"] /\ exists v, read "num_weights" = Ok v /\ forall k, dget d k = if String.eqb k "Random Features Weights" then Some (HVal v) else None.
Proof.
  intros V read n fs obj d I K H. split; [simpl in I; destruct I as [<-|[<-|[<-|[<-|[]]]]]; reflexivity|].
  destruct (hparams_ok _ _ _ _ _ H) as [_ [_ Q]].
  assert (C : chain (kerch_table fs) None obj HVariable = ([("Random Features Weights", Attr "num_weights")], End_ok)).
  { assert (M : In n all_kernels) by (simpl in I; destruct I as [<-|[<-|[<-|[<-|[]]]]]; apply smem_In; vm_compute; reflexivity).
    destruct K as [K|[b K]].
    - rewrite (is_kernel_chain n fs obj HVariable K). simpl in I; destruct I as [<-|[<-|[<-|[<-|[]]]]]; vm_compute; reflexivity.
    - rewrite (is_level_chain b n fs obj HVariable M K). simpl in I; destruct I as [<-|[<-|[<-|[<-|[]]]]]; destruct b; vm_compute; reflexivity. }
  rewrite C in Q. cbn [fst] in Q. pose proof (Q "Random Features Weights") as Q0. cbn in Q0. destruct Q0 as [v [RV GV]].
  destruct (read "num_weights") as [v0|] eqn:RA; [|discriminate RV]. injection RV as <-. exists v0. split; [reflexivity|].
  intro k. destruct (String.eqb k "Random Features Weights") eqn:E; [apply String.eqb_eq in E; subst k; exact GV|].
  specialize (Q k). unfold last_source in Q. cbn [fold_left fst] in Q. rewrite String.eqb_sym in E. rewrite E in Q. exact Q.
Qed.
Print Assumptions C155_features_refuted.
(** Nothing of the level itself is reported: the regularisation of a least-squares support vector
    machine, which is trained, is not, nor is the bandwidth of the kernel that a Nystrom kernel
    approximates. *)
Theorem C155_level_refuted : forall (V : Type) (read read' : string -> result V) b n fs obj d, In n all_kernels -> is_level b n fs obj ->
  (forall a, In a ("num_weights" :: trainable n) -> read a = read' a) ->
  report read fs obj HVariable = Ok (ADict d) -> exists d', report read' fs obj HVariable = Ok (ADict d') /\ forall k, dget d' k = dget d k.
Proof.
  intros V read read' b n fs obj d M K E H. destruct (hparams_ok _ _ _ _ _ H) as [EN [RD Q]].
  assert (A : forall k a, In (k, Attr a) (fst (chain (kerch_table fs) None obj HVariable)) -> In a ("num_weights" :: trainable n)).
  { rewrite (is_level_chain b n fs obj HVariable M K). assert (A : forallb (fun n => forallb (fun c => forallb (fun e => match snd e with Attr a => smem a ("num_weights" :: trainable n) | Name _ => true end) (fst (chain (kerch_table []) None c HVariable)))
       [counted_level true n; counted_level false n]) all_kernels = true) by (vm_compute; reflexivity).
    rewrite forallb_forall in A. specialize (A n M). rewrite forallb_forall in A.
    specialize (A (counted_level b n)). assert (J : In (counted_level b n) [counted_level true n; counted_level false n]) by (destruct b; [left | right; left]; reflexivity).
    specialize (A J). rewrite forallb_forall in A. intros k a I. specialize (A _ I). cbn [snd] in A. apply smem_In. exact A. }
  assert (X : exists d', report read' fs obj HVariable = Ok (ADict d')).
  { apply hparams_when. split; [exact EN|]. intros k a J. rewrite <- (E a (A k a J)). exact (RD k a J). }
  destruct X as [d' X]. exists d'. split; [exact X|]. intro k. destruct (hparams_ok _ _ _ _ _ X) as [_ [_ Q']]. specialize (Q k). specialize (Q' k).
  destruct (last_source (fst (chain (kerch_table fs) None obj HVariable)) k) as [s|] eqn:L; [|congruence].
  destruct Q as [v [R G]], Q' as [v' [R' G']]. apply last_source_In in L. rewrite G, G'. destruct s as [m|a]; [cbn in R, R'; congruence|].
  cbn in R, R'. rewrite (E a (A k a L)) in R. congruence.
Qed.
Print Assumptions C155_level_refuted.
(** A level on a user's kernel derived from the indicator kernel; one on random features. *)
Example C155_nontrivial :
  (exists fs obj, is_level true "Indicator" fs obj /\
     report (fun a => Ok a) fs obj HVariable = Ok (ADict [("Kernel lag", HVal "lag"); ("Kernel gamma", HVal "gamma")])) /\
  (exists fs obj, is_level true "RFF" fs obj /\ report (fun a => Ok a) fs obj HVariable = Ok (ADict [("Random Features Weights", HVal "num_weights")])).
Proof.
  split.
  - eexists. eexists. split.
    + eapply (IsLevel true "Indicator" "f" "g" ["LSSVM"; "Level"; "_Level"] (kernel_class ["Mine"; "Indicator"; "Implicit"]) None).
      * apply (own_plain ["Mine"; "Indicator"; "Implicit"] None); [discriminate | intro Q; apply smem_In in Q; vm_compute in Q; discriminate Q].
      * apply nodupb_sound. vm_compute. reflexivity.
      * vm_compute. reflexivity.
      * vm_compute. reflexivity.
      * vm_compute. reflexivity.
      * vm_compute. reflexivity.
      * vm_compute. reflexivity.
    + vm_compute. reflexivity.
  - eexists. eexists. split.
    + eapply (IsLevel true "RFF" "f" "g" ["LSSVM"; "Level"; "_Level"] (kernel_class ["RFF"; "RandomFeatures"]) None).
      * apply (own_plain ["RFF"; "RandomFeatures"] None); [discriminate | intro Q; apply smem_In in Q; vm_compute in Q; discriminate Q].
      * apply nodupb_sound. vm_compute. reflexivity.
      * vm_compute. reflexivity.
      * vm_compute. reflexivity.
      * vm_compute. reflexivity.
      * vm_compute. reflexivity.
      * vm_compute. reflexivity.
    + vm_compute. reflexivity.
Qed.
