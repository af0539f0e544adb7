(** Experiments run from the command line. *)
From Coq Require Import Permutation.
From Verif Require Import Base Factory Lazy LazySpec Trainer Script ScriptSpec ScriptProofs.
Open Scope string_scope.
Open Scope list_scope.

(** *** C193: an experiment file is followed to the letter *)
(** The order of the arguments does not matter, as long as only one file is given. *)
Theorem C193_arguments : forall l l' : list arg, Permutation l l' -> ~ In Version l ->
  List.length (flat_map (fun a => match a with File s => [s] | _ => [] end) l) <= 1 -> parse l = parse l'.
Proof. exact parse_order. Qed.
Print Assumptions C193_arguments.
(** A command is accepted when it has the action [expe] once; the last file counts. *)
Theorem C193_accepted : forall (l : list arg) (a : string) (f : option string) (v : bool), parse l = Parsed a f v ->
  a = "expe" /\ filter (fun x => match x with Action _ => true | _ => false end) l = [Action "expe"] /\
  f = last (map Some (flat_map (fun a => match a with File s => [s] | _ => [] end) l)) None /\
  (v = true <-> In Verbose l) /\ ~ In Version l.
Proof. exact parse_parsed. Qed.
Print Assumptions C193_accepted.
Example C193_arguments_nontrivial :
  parse [File "a.yaml"; Action "expe"; Verbose] = Parsed "expe" (Some "a.yaml") true /\
  parse [Verbose; Action "expe"; File "a.yaml"] = Parsed "expe" (Some "a.yaml") true /\
  parse [Action "expe"; File "a.yaml"; File "b.yaml"] = Parsed "expe" (Some "b.yaml") false /\
  parse [Action "expe"; Action "expe"] = Exit 2 /\ parse [Action "plot"] = Exit 2 /\ parse [Version] = Exit 0.
Proof. vm_compute. repeat split. Qed.

(** As the package is written, no experiment is ever trained: whatever the file and whatever was used
    before, the run ends with an error before a trainer is made. *)
Theorem C193_refuted : forall (read : string -> result yval) (mkdata : string -> dict yval -> result nat)
    (mkmodel : string -> dict yval -> result unit) (fit : dict yval -> result unit)
    (us : list model_use) (verbose : bool) (file : option string),
  let r := expe_run read mkdata mkmodel fit trainer_attr_as_written (model_run model_start us) verbose file in
  (exists e, snd r = Err e) /\ ~ In Trained (fst r) /\ (forall o, ~ In (TrainerMade o) (fst r)).
Proof.
  intros read mkdata mkmodel fit us verbose file r. unfold r.
  destruct (as_written_fails read mkdata mkmodel fit us verbose file) as [H1 H2].
  split; [exact H1 |]. split; [intros X; apply H2 in X | intros o X; apply H2 in X]; cbn in X; lia.
Qed.
Print Assumptions C193_refuted.
(** The experiment of the repository: the data and the model are there, and then nothing. *)
Example C193_refuted_witness :
  expe_run (fun _ => Ok rkm_yaml) (fun _ _ => Ok 500) (fun _ _ => Ok tt) (fun _ => Ok tt) trainer_attr_as_written
    model_start false (Some "rkm.yaml") =
  ([DataLoaded "PimaIndians" [("num_training", YInt 500); ("num_validation", YInt 100); ("num_test", YInt 150)];
    ModelLoaded "RKM" [("level0", rkm_level "kpca" 5 ["K"; "hidden_correlation"]);
                       ("level1", rkm_level "kpca" 3 ["K"; "hidden_correlation"]); ("level2", rkm_level "lssvm" 1 ["K"])]],
   Err import_error).
Proof. vm_compute. reflexivity. Qed.

(** The parts happen in order, none is skipped and none happens twice, also when the run fails. *)
Theorem C193_ordered : forall (read : string -> result yval) (mkdata : string -> dict yval -> result nat)
    (mkmodel : string -> dict yval -> result unit) (fit : dict yval -> result unit) (trainer_attr : state -> result unit)
    (s : state) (verbose : bool) (file : option string), exists k : nat,
  map stage (effects (fst (expe_run read mkdata mkmodel fit trainer_attr s verbose file))) = seq 1 k /\ 0 + k <= 4.
Proof. exact run_ordered. Qed.
Print Assumptions C193_ordered.
(** A file without the section [data] is refused with a [KeyError] before anything is done; one whose
    section is not a list of options, or that has no sections at all, with a [TypeError]. *)
Theorem C193_missing : forall (read : string -> result yval) (mkdata : string -> dict yval -> result nat)
    (mkmodel : string -> dict yval -> result unit) (fit : dict yval -> result unit) (trainer_attr : state -> result unit)
    (s : state) (verbose : bool) (file : string) (doc : yval), read file = Ok doc ->
  let r := expe_run read mkdata mkmodel fit trainer_attr s verbose (Some file) in
  (forall d, doc = YMap d -> dget d "data" = None -> snd r = Err EKeyError /\ effects (fst r) = []) /\
  (forall d v, doc = YMap d -> dget d "data" = Some v -> (forall o, v <> YMap o) -> snd r = Err ETypeError /\ effects (fst r) = []) /\
  ((forall d, doc <> YMap d) -> snd r = Err ETypeError /\ effects (fst r) = []).
Proof.
  intros read mkdata mkmodel fit trainer_attr s verbose file doc H r.
  assert (A : forall x, bind (subscript doc "data") unpack = Err x -> snd r = Err x /\ effects (fst r) = []).
  { intros x S. assert (E : r = (fst (say verbose "Loading data..."), Err x)).
    { unfold r, expe_run. rewrite H. unfold andthen at 1. unfold lift at 1 2 3. cbn [fst snd app]. rewrite S.
      destruct verbose; reflexivity. }
    rewrite E. destruct verbose; split; reflexivity. }
  clearbody r. split; [|split].
  - intros d -> E. apply A. unfold subscript. rewrite E. reflexivity.
  - intros d v -> E N. apply A. unfold subscript. rewrite E. destruct v; try reflexivity. exfalso. eapply N. reflexivity.
  - intros N. apply A. destruct doc; try reflexivity. exfalso. eapply N. reflexivity.
Qed.
Print Assumptions C193_missing.
Example C193_missing_nontrivial : exists d, dget d "data" = None /\ dget d "model" = Some (YMap []).
Proof. exists [("model", YMap [])]. split; reflexivity. Qed.
(** The option [-v] prints, and changes nothing else. *)
Theorem C193_verbose : forall (read : string -> result yval) (mkdata : string -> dict yval -> result nat)
    (mkmodel : string -> dict yval -> result unit) (fit : dict yval -> result unit) (trainer_attr : state -> result unit)
    (s : state) (file : option string),
  (forall o b b', fit (("verbose", YBool b) :: o) = fit (("verbose", YBool b') :: o)) ->
  let run v := expe_run read mkdata mkmodel fit trainer_attr s v file in
  map quietly (effects (fst (run true))) = map quietly (effects (fst (run false))) /\ snd (run true) = snd (run false).
Proof. intros read mkdata mkmodel fit trainer_attr s file H. exact (run_quiet read mkdata mkmodel fit trainer_attr s file true false H). Qed.
Print Assumptions C193_verbose.

(** If the trainer could be imported, a run that ends well would have made the data set, the model and the
    trainer with the options of the three sections and with nothing else, and trained. *)
Theorem C193_followed_partial : forall (read : string -> result yval) (mkdata : string -> dict yval -> result nat)
    (mkmodel : string -> dict yval -> result unit) (fit : dict yval -> result unit)
    (s : state) (verbose : bool) (file : string) (l : list event),
  expe_run read mkdata mkmodel fit (fun _ => Ok tt) s verbose (Some file) = (l, Ok tt) ->
  exists doc d m t cd cm num,
    read file = Ok doc /\ section doc "data" d /\ section doc "model" m /\ section doc "train" t /\
    names data_factory d "dataset" "gaussians" cd /\ mkdata cd (dpop d "dataset") = Ok num /\
    names model_factory m "model_type" "rkm" cm /\ mkmodel cm (dpop m "model_type") = Ok tt /\
    let o := ("verbose", YBool verbose) :: ("expe_name", YStr (expe_name file)) :: t in
    fit o = Ok tt /\ trainer_init num t = Ok tt /\
    effects l = [DataLoaded cd (dpop d "dataset"); ModelLoaded cm (dpop m "model_type"); TrainerMade o; Trained].
Proof.
  intros read mkdata mkmodel fit s verbose file l H. apply run_ok in H.
  destruct H as (doc & d & m & t & cd & cm & num & s' & o & H1 & H2 & H3 & H4 & H5 & H6 & H7 & H8 & _ & H10 & H11 & H12).
  apply trainer_call_ok in H10. destruct H10 as (-> & _ & H13).
  exists doc, d, m, t, cd, cm, num. repeat (split; [assumption |]). exact H12.
Qed.
Print Assumptions C193_followed_partial.
(** Conversely, such a file is trained, unless its model is the abstract one, or it gives an option that the
    command gives already. *)
Theorem C193_runs_partial : forall (read : string -> result yval) (mkdata : string -> dict yval -> result nat)
    (mkmodel : string -> dict yval -> result unit) (fit : dict yval -> result unit)
    (us : list model_use) (verbose : bool) (file : string) (doc : yval) (d m t : dict yval) (cd cm : string) (num : nat),
  read file = Ok doc -> section doc "data" d -> section doc "model" m -> section doc "train" t ->
  names data_factory d "dataset" "gaussians" cd -> mkdata cd (dpop d "dataset") = Ok num ->
  names model_factory m "model_type" "rkm" cm -> cm <> "Model" -> mkmodel cm (dpop m "model_type") = Ok tt ->
  (forall k, In k ["model"; "learning_set"; "verbose"; "expe_name"] -> dget t k = None) -> trainer_init num t = Ok tt ->
  fit (("verbose", YBool verbose) :: ("expe_name", YStr (expe_name file)) :: t) = Ok tt ->
  exists l, expe_run read mkdata mkmodel fit (fun _ => Ok tt) (model_run model_start us) verbose (Some file) = (l, Ok tt).
Proof.
  intros read mkdata mkmodel fit us verbose file doc d m t cd cm num H1 H2 H3 H4 H5 H6 H7 Hn H8 H9 H10 H11.
  apply names_option in H7. destruct H7 as (ty & Ho & Hty).
  apply (run_ok_conv read mkdata mkmodel fit (fun _ => Ok tt) (model_run model_start us) verbose file doc d m t cd cm ty num
           (("verbose", YBool verbose) :: ("expe_name", YStr (expe_name file)) :: t) H1 H2 H3 H4 H5 H6 Ho Hty); try assumption; try reflexivity.
  - rewrite (LazyModelProofs.model_create us ty), Hty. cbn [bind].
    destruct (String.eqb cm "Model") eqn:E; [apply String.eqb_eq in E; contradiction | reflexivity].
  - apply trainer_call_ok. now repeat split.
Qed.
Print Assumptions C193_runs_partial.
(** What the trainer accepts of the section [train]: a problem of regression, a batch size that is ["all"] or
    between one and the number of training points, and a number of epochs that is positive (also [true] or a
    fraction); and no empty training set. *)
Theorem C193_training_partial : forall (num : nat) (o : dict yval), trainer_init num o = Ok tt <->
  0 < num /\ (dget o "problem" = None \/ dget o "problem" = Some (YStr "regression")) /\
  (forall v, dget o "batch_size" = Some v -> v = YStr "all" \/ exists z, v = YInt z /\ (0 < z <= Z.of_nat num)%Z) /\
  (forall v, dget o "epochs" = Some v ->
     (exists z, v = YInt z /\ (0 < z)%Z) \/ v = YBool true \/ (exists n p, v = YFloat n p /\ (0 < n)%Z)).
Proof. exact trainer_accepts. Qed.
Print Assumptions C193_training_partial.
(** [verbose], [expe_name], [model] or [learning_set] in the section [train]: the call fails, after the data and
    the model were loaded. *)
Theorem C193_twice_refuted : forall (num : nat) (verbose : bool) (name k : string) (t : dict yval),
  In k ["model"; "learning_set"; "verbose"; "expe_name"] -> dget t k <> None -> trainer_call num verbose name t = Err ETypeError.
Proof.
  intros num verbose name k t Hk Ht. unfold trainer_call.
  replace (existsb (dmem t) ["model"; "learning_set"; "verbose"; "expe_name"]) with true; [reflexivity |].
  symmetry. apply existsb_exists. exists k. split; [exact Hk |]. unfold dmem. destruct (dget t k); [reflexivity | contradiction].
Qed.
Print Assumptions C193_twice_refuted.
(** Without a file the command is accepted and fails at once. *)
Theorem C193_no_file_refuted : forall (read : string -> result yval) (mkdata : string -> dict yval -> result nat)
    (mkmodel : string -> dict yval -> result unit) (fit : dict yval -> result unit) (trainer_attr : state -> result unit) (s : state),
  main_run read mkdata mkmodel fit trainer_attr s [Action "expe"] = (Parsed "expe" None false, ([Said "expe"], Err ETypeError)).
Proof. reflexivity. Qed.
Print Assumptions C193_no_file_refuted.
(** The experiment is named after its file when the file ends with [.yaml]; with another ending of another
    length the name is wrong: a letter is lost with [.yml]. *)
Theorem C193_name_partial : forall s : string, expe_name (s ++ ".yaml") = s.
Proof. intros s. apply expe_name_app. reflexivity. Qed.
Print Assumptions C193_name_partial.
Theorem C193_name_refuted : forall (s : string) (c : Ascii.ascii), expe_name (s ++ String c ".yml") = s.
Proof. exact expe_name_yml. Qed.
Print Assumptions C193_name_refuted.
(** The experiment of the repository meets the conditions of [C193_runs_partial], and its run is the expected one. *)
Example C193_nontrivial :
  expe_run (fun _ => Ok rkm_yaml) (fun _ _ => Ok 500) (fun _ _ => Ok tt) (fun _ => Ok tt) (fun _ => Ok tt)
    model_start true (Some "rkm.yaml") =
  ([Said "Loading data...";
    DataLoaded "PimaIndians" [("num_training", YInt 500); ("num_validation", YInt 100); ("num_test", YInt 150)];
    Said "Done"; Said "Loading model...";
    ModelLoaded "RKM" [("level0", rkm_level "kpca" 5 ["K"; "hidden_correlation"]);
                       ("level1", rkm_level "kpca" 3 ["K"; "hidden_correlation"]); ("level2", rkm_level "lssvm" 1 ["K"])];
    Said "Done"; Said "Initializing training...";
    TrainerMade [("verbose", YBool true); ("expe_name", YStr "rkm"); ("epochs", YInt 5); ("watcher", YMap [("watcher_type", YStr "wandb")])];
    Said "Done"; Said "Start training..."; Trained; Said "Model trained"], Ok tt) /\
  trainer_call 500 false "x" [("verbose", YBool true)] = Err ETypeError /\
  trainer_call 500 false "x" [("batch_size", YInt 501)] = Err EAssertionError /\
  trainer_call 500 false "x" [("problem", YStr "classification")] = Err ENotImplemented /\
  trainer_call 500 false "x" [("epochs", YStr "5")] = Err ETypeError /\
  expe_name "results/run.yml" = "results/ru".
Proof. vm_compute. repeat split. Qed.
