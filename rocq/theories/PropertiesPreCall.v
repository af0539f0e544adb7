(** Asking for pre-images (C212). *)
From Verif Require Import Base Factory Classes ClassesSpec ClassesProofs PreCall PreCallSpec PreCallProofs.
Open Scope nat_scope.
Open Scope string_scope.
Open Scope list_scope.

(** From kernel values: every kernel and level offers the documented methods, under any
    capitalisation, with the documented arguments only. *)
Theorem C212_kernel_values : forall obj own k, asked obj own ->
  let m := lower (match c_method k with Some m => m | None => "knn" end) in
  (forall name ans accepted, In (name, (ans, accepted)) offered -> m = name ->
     (incl (c_extra k) accepted -> implicit_preimage pre_defs obj k = Some (Ok ans)) /\
     (~ incl (c_extra k) accepted -> implicit_preimage pre_defs obj k = Some (Err ETypeError))) /\
  (~ In m (map fst offered) -> implicit_preimage pre_defs obj k = Some (Err EAttributeError)).
Proof.
  intros obj own k A m. split; [|exact (implicit_unknown obj own k A)].
  intros name ans accepted I E. exact (implicit_offered obj own k name ans accepted A I E).
Qed.
Print Assumptions C212_kernel_values.
(** From features, the same when the features are known, except for the polynomial kernel. *)
Theorem C212_features_partial : forall obj own k, asked obj own -> with_features own ->
  let m := lower (match c_method k with Some m => m | None => "explicit" end) in
  (forall name ans accepted, In (name, (ans, accepted)) offered -> m = name ->
     (incl (c_extra k) accepted -> explicit_preimage pre_defs obj k = Some (Ok ans)) /\
     (~ incl (c_extra k) accepted -> explicit_preimage pre_defs obj k = Some (Err ETypeError))) /\
  (~ In m ("explicit" :: map fst offered) -> explicit_preimage pre_defs obj k = Some (Err EAttributeError)).
Proof.
  intros obj own k A W m. split; [|exact (explicit_unknown obj own k A W)].
  intros name ans accepted I E. exact (explicit_offered obj own k name ans accepted A W I E).
Qed.
Print Assumptions C212_features_partial.
(** The pre-image of the kernel itself, the default: linear kernels, random features and stacks
    have one; the others fail, those of neural networks too, which have a decoder. *)
Theorem C212_own_exactly : forall obj own k c, asked obj own -> with_features own ->
  lower (match c_method k with Some m => m | None => "explicit" end) = "explicit" ->
  resolve pre_defs own "_explicit_preimage" = Some c ->
  explicit_preimage pre_defs obj k =
    Some (if smem c ["Linear"; "RandomFeatures"; "RFStacked"] then Ok (OwnOf c)
          else if String.eqb c "Explicit" then Err ENotImplemented
          else if String.eqb c "Nystrom" then Err EExplicit else Err (EOther 3)).
Proof. exact explicit_own. Qed.
Print Assumptions C212_own_exactly.
(** A kernel without known features answers any request with a [TypeError] and not with the
    [ExplicitError] of the documentation. *)
Theorem C212_no_features_refuted : forall obj own k, asked obj own -> In "Implicit" own -> ~ In "Polynomial" own ->
  explicit_preimage pre_defs obj k = Some (Err ETypeError).
Proof. exact explicit_no_features. Qed.
Print Assumptions C212_no_features_refuted.
(** A polynomial kernel, whose features are known, never gives a pre-image of them. *)
Theorem C212_polynomial_refuted : forall obj own pre rest k, asked obj own -> own = pre ++ "Polynomial" :: rest -> ~ In "Implicit" pre ->
  explicit_preimage pre_defs obj k = Some (Err ETypeError) \/ explicit_preimage pre_defs obj k = Some (Ok ClassReturned).
Proof. exact explicit_polynomial. Qed.
Print Assumptions C212_polynomial_refuted.
(** A level on a linear kernel, a kernel of random features, a polynomial kernel, and a level on a
    kernel of a user without features. *)
Example C212_nontrivial :
  (exists obj, level_object "f1" "f2" (level_class ["KPCA"; "_KPCA"; "Level"; "_Level"]) (cls_of "Linear") None = Ok obj /\ asked obj ["Linear"; "Explicit"]) /\
  with_features ["Linear"; "Explicit"] /\ resolve pre_defs ["Linear"; "Explicit"] "_explicit_preimage" = Some "Linear" /\
  asked (cls_of "RFF") ["RFF"; "RandomFeatures"] /\ resolve pre_defs ["RFF"; "RandomFeatures"] "_explicit_preimage" = Some "RandomFeatures" /\
  asked (cls_of "Polynomial") (["Polynomial"] ++ ["Implicit"; "Explicit"]) /\
  (exists obj, asked obj ["Mine"; "Exponential"; "SelectDistance"; "Manhattan"; "Distance"; "_Distance"; "Implicit"]) /\
  In ("knn", (ByKnn, ["num"])) offered /\ lower "KNN" = "knn".
Proof.
  split.
  { eexists. split; [vm_compute; reflexivity|]. apply (ask_level "f1" "f2" ["KPCA"; "_KPCA"; "Level"; "_Level"] (kernel_class ["Linear"; "Explicit"]) None).
    - apply own_plain; [discriminate | cbn; intuition discriminate].
    - apply nodupb_sound. vm_compute. reflexivity.
    - intros c I. cbn [In] in I. repeat (destruct I as [<-|I]; [reflexivity|]). destruct I.
    - vm_compute. reflexivity. }
  split; [split; cbn; intuition discriminate|]. split; [reflexivity|].
  split.
  { apply (ask_kernel "f" (kernel_class ["RFF"; "RandomFeatures"]) None).
    - apply own_plain; [discriminate | cbn; intuition discriminate].
    - apply nodupb_sound. vm_compute. reflexivity.
    - reflexivity.
    - vm_compute. reflexivity. }
  split; [reflexivity|]. split.
  { apply (ask_kernel "f" (kernel_class ["Polynomial"; "Implicit"; "Explicit"]) None).
    - apply own_plain; [discriminate | cbn; intuition discriminate].
    - apply nodupb_sound. vm_compute. reflexivity.
    - reflexivity.
    - vm_compute. reflexivity. }
  split; [|split; [left; reflexivity | reflexivity]].
  eexists. apply (ask_kernel "f" (distance_kernel ["Mine"; "Exponential"]) (Some (DName "manhattan"))).
  - apply (own_distance ["Mine"; "Exponential"] (Some (DName "manhattan")) ["Manhattan"; "Distance"]); [discriminate | vm_compute; reflexivity].
  - apply nodupb_sound. vm_compute. reflexivity.
  - reflexivity.
  - vm_compute. reflexivity.
Qed.
