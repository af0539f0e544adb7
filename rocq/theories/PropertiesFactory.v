(** Property theorems C46, C47, C96, C97, C98: names and representations. *)
From Verif Require Import Base Factory FactorySpec FactoryProofs.
Open Scope string_scope.

(** * C46 *)

Theorem C46_class_of_the_name :
  forall s c : string, public_kernel c ->
    (kernel_factory s = Ok c <-> same_name underscore s c \/ (c = "RBF" /\ same_name underscore s "factory")).
Proof. exact kernel_factory_spec. Qed.
Print Assumptions C46_class_of_the_name.
Theorem C46_rejects_partial :
  forall s : string, (forall c, public_kernel c -> ~ same_name underscore s c) -> ~ same_name underscore s "factory" ->
    kernel_factory s = Err ENameError.
Proof. exact kernel_rejected. Qed.
Print Assumptions C46_rejects_partial.
Theorem C46_only_public : forall s c : string, kernel_factory s = Ok c -> public_kernel c.
Proof. exact kernel_result_public. Qed.
Print Assumptions C46_only_public.
Theorem C46_documented_names :
  forall s c : string, In (s, c) documented_names -> public_kernel c /\ kernel_factory s = Ok c.
Proof. exact documented_resolve. Qed.
Print Assumptions C46_documented_names.
(** The name of no kernel creates one. *)
Theorem C46_factory_refuted : forall s : string, same_name underscore s "factory" -> kernel_factory s = Ok "RBF".
Proof. exact factory_name_accepted. Qed.
Print Assumptions C46_factory_refuted.

Example C46_nontrivial : public_kernel "RFLReLU" /\ kernel_factory "rF_lre_LU" = Ok "RFLReLU" /\
  kernel_factory "_basekernel" = Err ENameError /\ kernel_factory "gaussian" = Err ENameError.
Proof. split; [split; [cbn; tauto|split; discriminate]|]. split; [reflexivity|split; reflexivity]. Qed.

(** * C47 *)

Theorem C47_unknown_refuted :
  forall (X V : Type) (phi k : X -> result V) (x : X) (rep : string), rep <> "primal" -> rep <> "dual" ->
    forward phi k x rep = Ok ErrorObject.
Proof. exact @forward_unknown. Qed.
Print Assumptions C47_unknown_refuted.
Theorem C47_known_partial :
  forall (X V : Type) (phi k : X -> result V) (x : X),
    forward phi k x "primal" = bind (phi x) (fun v => Ok (Data v)) /\
    forward phi k x "dual" = bind (k x) (fun v => Ok (Data v)).
Proof. exact @forward_known. Qed.
Print Assumptions C47_known_partial.

Example C47_nontrivial : forward (fun x : nat => Ok (x + 1)%nat) (fun _ => Err EImplicit) 4%nat "Dual" = Ok ErrorObject /\
  forward (fun x : nat => Ok (x + 1)%nat) (fun _ => Err EImplicit) 4%nat "dual" = Err EImplicit.
Proof. split; reflexivity. Qed.

(** * C96 *)

Theorem C96_guard_partial : forall s : string, same_name no_skip s "Nystrom" -> nystrom_base s = Err EAssertionError.
Proof. exact nystrom_guard. Qed.
Print Assumptions C96_guard_partial.
Theorem C96_underscores_refuted :
  forall s : string, same_name underscore s "Nystrom" -> ~ same_name no_skip s "Nystrom" -> nystrom_base s = Ok "Nystrom".
Proof. exact nystrom_guard_misses. Qed.
Print Assumptions C96_underscores_refuted.

Example C96_nontrivial : same_name underscore "Ny_strom" "Nystrom" /\ ~ same_name no_skip "Ny_strom" "Nystrom" /\
  same_name no_skip "nySTROM" "Nystrom".
Proof.
  split; [now apply same_underscore|]. split; [|now apply same_no_skip]. intros H. apply same_no_skip in H. discriminate H.
Qed.

(** * C97 *)

Theorem C97_levels :
  forall s c : string, level_factory s = Ok c <-> In c ["KPCA"; "LSSVM"; "Ridge"] /\ same_name no_skip s c.
Proof. exact level_spec. Qed.
Print Assumptions C97_levels.
Theorem C97_levels_rejected :
  forall s : string, (forall c, In c ["KPCA"; "LSSVM"; "Ridge"] -> ~ same_name no_skip s c) -> level_factory s = Err ENameError.
Proof. exact level_rejected. Qed.
Print Assumptions C97_levels_rejected.
(** Models and datasets: exact up to the name of the factory itself, which creates the default. *)
Theorem C97_models_partial :
  forall s c : string, model_factory s = Ok c <->
    (In c ["KPCA"; "LSSVM"; "Model"; "RKM"] /\ same_name no_skip s c) \/ (c = "RKM" /\ same_name no_skip s "factory").
Proof. exact model_spec. Qed.
Print Assumptions C97_models_partial.
Theorem C97_datasets_partial :
  forall s c : string, data_factory s = Ok c <->
    (In c ["Gaussians"; "Iris"; "PimaIndians"; "Spiral"; "TwoMoons"] /\ same_name blank s c) \/
    (c = "PimaIndians" /\ same_name blank s "Pima") \/ (c = "Gaussians" /\ same_name blank s "factory").
Proof. exact data_spec. Qed.
Print Assumptions C97_datasets_partial.

Example C97_nontrivial : level_factory "lsSVM" = Ok "LSSVM" /\ level_factory "ppca" = Err ENameError /\
  data_factory "two moons" = Ok "TwoMoons" /\ data_factory "PIMA" = Ok "PimaIndians" /\ model_factory "rkm" = Ok "RKM" /\
  model_factory "FACTORY" = Ok "RKM".
Proof. split; [reflexivity|]. split; [reflexivity|]. split; [reflexivity|]. split; [reflexivity|]. split; reflexivity. Qed.

(** * C98 *)

Theorem C98_watchers_refuted : forall s : string, exists e, watcher_factory s = Err e.
Proof. exact watcher_never. Qed.
Print Assumptions C98_watchers_refuted.

Example C98_nontrivial : watcher_factory "saver" = Err EAttributeError /\ watcher_factory "none" = Err ETypeError.
Proof. split; reflexivity. Qed.
