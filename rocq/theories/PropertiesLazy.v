(** What the names of kerch stand for does not depend on what was used before (C165, C166, C167). *)
From Verif Require Import Base Factory Lazy LazySpec LazyProofs LazyModelProofs.
Open Scope string_scope.
Open Scope list_scope.

(** *** C165: the levels *)
(** After [kerch.level.Ridge], [kerch.level.LSSVM] is a module, which cannot be called, and the
    factory cannot make an LSSVM; after nothing, or in the other order, it can. *)
Theorem C165_refuted :
  fst (level_step (level_run level_start []) (Use "LSSVM")) = Ok (level_class "LSSVM") /\
  fst (level_step (level_run level_start [Use "Ridge"]) (Use "LSSVM")) = Ok (VModule "level.single_view.LSSVM") /\
  call (VModule "level.single_view.LSSVM") = Err ETypeError /\
  fst (level_step (level_run level_start []) (Create "lssvm")) = Ok (level_class "LSSVM") /\
  fst (level_step (level_run level_start [Use "Ridge"]) (Create "lssvm")) = Err ETypeError /\
  fst (level_step (level_run level_start [Use "LSSVM"; Use "Ridge"]) (Create "lssvm")) = Ok (level_class "LSSVM").
Proof. vm_compute. repeat split. Qed.
Print Assumptions C165_refuted.
(** Exactly: whatever was used before, [LSSVM] is its class unless the user asked for [Ridge]
    before having asked for [LSSVM]. *)
Theorem C165_lssvm : forall us : list level_use,
  fst (level_step (level_run level_start us) (Use "LSSVM")) =
    Ok (if ridge_first us then VModule "level.single_view.LSSVM" else level_class "LSSVM").
Proof. exact level_lssvm. Qed.
Print Assumptions C165_lssvm.
Theorem C165_factory : forall (us : list level_use) (ty : string),
  fst (level_step (level_run level_start us) (Create ty)) =
    bind (level_factory ty) (fun c => if String.eqb c "LSSVM" && ridge_first us then Err ETypeError else Ok (level_class c)).
Proof. exact level_create. Qed.
Print Assumptions C165_factory.
Example C165_nontrivial :
  ridge_first [Use "KPCA"; Create "RIDGE"; Use "LSSVM"] = true /\ ridge_first [Create "Lssvm"; Use "Ridge"] = false.
Proof. vm_compute. split; reflexivity. Qed.
(** The other levels and the factory are what they are in every history. *)
Theorem C165_others_partial : forall us : list level_use,
  (forall c : string, In c ["KPCA"; "PPCA"; "Ridge"] -> fst (level_step (level_run level_start us) (Use c)) = Ok (level_class c)) /\
  fst (level_step (level_run level_start us) (Use "MVKPCA")) = Ok (VObject "level.multi_view.MVKPCA" "MVKPCA") /\
  fst (level_step (level_run level_start us) (Use "factory")) = Ok (VObject "level.factory" "factory").
Proof. intros us. split; [exact (level_always us) | split; [exact (level_mvkpca us) | exact (level_fact us)]]. Qed.
Print Assumptions C165_others_partial.
(** [kerch.level.Level], which the stub announces, is never the class; still the models, which
    import it, can always be imported. *)
Theorem C165_level_refuted : forall us : list level_use,
  fst (level_step (level_run level_start us) (Use "Level")) = Err EAttributeError \/
  fst (level_step (level_run level_start us) (Use "Level")) = Ok (VModule "level.single_view.Level").
Proof. exact level_level. Qed.
Print Assumptions C165_level_refuted.
Example C165_level_nontrivial :
  fst (level_step (level_run level_start []) (Use "Level")) = Err EAttributeError /\
  fst (level_step (level_run level_start [Use "KPCA"]) (Use "Level")) = Ok (VModule "level.single_view.Level").
Proof. vm_compute. split; reflexivity. Qed.
Theorem C165_models_import : forall us : list level_use,
  fst (level_step (level_run level_start us) ImportModels) = Ok (VModule "model.Model").
Proof. exact level_models. Qed.
Print Assumptions C165_models_import.
(** What a name was once found to be, it is found to be ever after, whatever is used in between. *)
Theorem C165_stable : forall (us vs : list level_use) (n : string) (v : value),
  fst (level_step (level_run level_start us) (Use n)) = Ok v ->
  fst (level_step (level_run level_start (us ++ Use n :: vs)) (Use n)) = Ok v.
Proof. exact level_stable. Qed.
Print Assumptions C165_stable.
(** A name that the package has not is an [AttributeError], and nothing is loaded. *)
Theorem C165_unknown : forall (us : list level_use) (n : string),
  smem n ["KPCA"; "LSSVM"; "PPCA"; "Ridge"; "Level"; "MVKPCA"; "factory";
          "single_view"; "multi_view"; "_View"; "_Level"; "_KPCA"; "_PPCA"] = false ->
  level_step (level_run level_start us) (Use n) = (Err EAttributeError, level_run level_start us).
Proof. intros us n H. exact (level_unknown _ n H). Qed.
Print Assumptions C165_unknown.

(** *** C166: the models *)
(** [kerch.model.Model] is its class only when nothing that needs its file was used before. *)
Theorem C166_model : forall us : list model_use,
  fst (model_step (model_run model_start us) (UseModel "Model")) =
    Ok (if other_first us then VModule "model.Model" else model_class "Model").
Proof. exact model_model. Qed.
Print Assumptions C166_model.
Theorem C166_factory : forall (us : list model_use) (ty : string),
  fst (model_step (model_run model_start us) (CreateModel ty)) =
    bind (model_factory ty) (fun c => if String.eqb c "Model" && other_first (us ++ [CreateModel ty]) then Err ETypeError else Ok (model_class c)).
Proof. exact model_create. Qed.
Print Assumptions C166_factory.
Example C166_nontrivial :
  other_first [UseModel "Model"; UseModel "RKM"] = false /\ other_first [UseModel "RKM"; UseModel "Model"] = true /\
  other_first [UseTrain "Trainer"] = true /\ other_first [UseTrain "Hyper"; UseModel "nothing"] = false /\
  model_factory "model" = Ok "Model".
Proof. vm_compute. repeat split. Qed.
(** So the factory on its own never makes a [Model]. *)
Theorem C166_refuted :
  fst (model_step (model_run model_start []) (UseModel "Model")) = Ok (model_class "Model") /\
  fst (model_step (model_run model_start [UseModel "RKM"]) (UseModel "Model")) = Ok (VModule "model.Model") /\
  fst (model_step (model_run model_start []) (CreateModel "model")) = Err ETypeError /\
  fst (model_step (model_run model_start [UseModel "Model"]) (CreateModel "model")) = Ok (model_class "Model").
Proof. vm_compute. repeat split. Qed.
Print Assumptions C166_refuted.
Theorem C166_others_partial : forall (us : list model_use) (c : string), In c ["RKM"; "LSSVM"; "KPCA"; "factory"] ->
  fst (model_step (model_run model_start us) (UseModel c)) = Ok (model_class c).
Proof. exact model_others. Qed.
Print Assumptions C166_others_partial.
(** [kerch.train.Trainer] can never be used: the optimizer imports a module that does not exist. *)
Theorem C166_trainer_refuted : forall us : list model_use,
  fst (model_step (model_run model_start us) (UseTrain "Trainer")) = Err import_error.
Proof. exact model_trainer. Qed.
Print Assumptions C166_trainer_refuted.

(** *** C167: the kernels *)
(** Every name that [kerch.kernel] offers is the class (or the factory) of its file, whatever names
    were used and whatever files were imported before, in whatever order. *)
Theorem C167_offered : forall (us : list kernel_use) (n file : string), In (n, file) offered_kernels ->
  fst (kernel_step (kernel_run (fresh kernel_table) us) (UseKernel n)) = Ok (VObject (submodule "kernel" file) n).
Proof. intros us n file H. exact (kernel_offered _ n file H). Qed.
Print Assumptions C167_offered.
(** Every file can be imported at any time: there is no circular import. *)
Theorem C167_files : forall (us : list kernel_use) (m : string), In m kernel_files ->
  fst (kernel_step (kernel_run (fresh kernel_table) us) (ImportFile m)) = Ok (VModule m).
Proof. intros us m H. exact (kernel_import _ m H). Qed.
Print Assumptions C167_files.
(** A name that is neither offered nor a file is an [AttributeError] that loads nothing. *)
Theorem C167_unknown : forall (us : list kernel_use) (n : string),
  ~ In n (map fst offered_kernels) ->
  ~ In n ["distance"; "generic"; "random_features"; "network"; "time"; "vision"; "statistics";
          "_base_kernel"; "kernel"; "implicit"; "explicit"; "_factory"; "nystrom"] ->
  kernel_step (kernel_run (fresh kernel_table) us) (UseKernel n) = (Err EAttributeError, kernel_run (fresh kernel_table) us).
Proof. intros us n H1 H2. exact (kernel_unknown _ n H1 H2). Qed.
Print Assumptions C167_unknown.
Example C167_nontrivial :
  List.length offered_kernels = 36 /\ List.length kernel_files = 50 /\
  loaded (kernel_run (fresh kernel_table) [UseKernel "RFF"]) "kernel.generic.rbf" = true /\
  fst (kernel_step (kernel_run (fresh kernel_table) [UseKernel "RFF"]) (UseKernel "kernel")) = Ok (VModule "kernel.kernel") /\
  fst (kernel_step (fresh kernel_table) (UseKernel "kernel")) = Err EAttributeError /\
  fst (kernel_step (kernel_run (fresh kernel_table) [UseKernel "RFF"]) (UseKernel "Kernel")) = Ok (VObject "kernel.kernel" "Kernel").
Proof. vm_compute. repeat split. Qed.
