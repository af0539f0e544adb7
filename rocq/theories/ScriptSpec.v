(** The vocabulary of the properties of [PropertiesScript]. *)
From Verif Require Import Base Factory Lazy Script.
Open Scope string_scope.
Open Scope list_scope.

(** What a run does, without what it prints. *)
Definition effect (e : event) : bool := match e with Said _ => false | _ => true end.
Definition effects (l : list event) : list event := filter effect l.
(** … and without the option [verbose] of the trainer. *)
Definition quietly (e : event) : event := match e with TrainerMade o => TrainerMade (dpop o "verbose") | _ => e end.

(** The four parts of a run, in the order in which they must happen. *)
Definition stage (e : event) : nat :=
  match e with Said _ => 0 | DataLoaded _ _ => 1 | ModelLoaded _ _ => 2 | TrainerMade _ => 3 | Trained => 4 end.

(** The section [k] of the file. *)
Definition section (doc : yval) (k : string) (o : dict yval) : Prop :=
  exists top, doc = YMap top /\ dget top k = Some (YMap o).
(** The option [k] names the class [c], with a default. *)
Definition names (find : string -> result string) (o : dict yval) (k default c : string) : Prop :=
  (exists s, dget o k = Some (YStr s) /\ find s = Ok c) \/ (dget o k = None /\ find default = Ok c).

(** The content of [research/yaml/rkm.yaml], the only experiment file of the repository. *)
Definition rkm_level (type : string) (dim : Z) (watched : list string) : yval :=
  YMap [("level_type", YStr type); ("kernel_type", YStr "rbf"); ("representation", YStr "dual"); ("dim_output", YInt dim);
        ("watch_properties", YList (map YStr watched))].
Definition rkm_yaml : yval :=
  YMap [ ("data", YMap [("dataset", YStr "pima"); ("num_training", YInt 500); ("num_validation", YInt 100); ("num_test", YInt 150)]);
         ("model", YMap [("model_type", YStr "rkm"); ("level0", rkm_level "kpca" 5 ["K"; "hidden_correlation"]);
                         ("level1", rkm_level "kpca" 3 ["K"; "hidden_correlation"]); ("level2", rkm_level "lssvm" 1 ["K"])]);
         ("train", YMap [("epochs", YInt 5); ("watcher", YMap [("watcher_type", YStr "wandb")])]) ].
