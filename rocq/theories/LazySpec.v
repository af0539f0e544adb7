(** The vocabulary of the properties of [PropertiesLazy]. *)
From Verif Require Import Base Factory Lazy.
Open Scope string_scope.
Open Scope list_scope.

(** The classes of the levels and of the models, and the file that each is written in. *)
Definition level_class (c : string) : value := VObject ("level.single_view." ++ c) c.
Definition model_class (c : string) : value := VObject ("model." ++ c) c.

(** The user asks for the level [c], by its name or through the factory, whatever the case. *)
Definition asks (c : string) (u : level_use) : bool :=
  match u with Use n => String.eqb n c | Create ty => String.eqb (lower ty) (lower c) | ImportModels => false end.
(** Of [Ridge] and [LSSVM], the user asked first for [Ridge]. *)
Fixpoint ridge_first (us : list level_use) : bool :=
  match us with
  | [] => false
  | u :: us' => if asks "LSSVM" u then false else if asks "Ridge" u then true else ridge_first us'
  end.

(** What loads the file of [kerch.model.Model], other than the use of that name itself. *)
Definition needs_model (u : model_use) : bool :=
  match u with
  | UseModel n => smem n ["RKM"; "LSSVM"; "KPCA"; "factory"]
  | UseTrain n => String.eqb n "Trainer"
  | CreateModel _ => true
  end.
Definition asks_model (u : model_use) : bool := match u with UseModel n => String.eqb n "Model" | _ => false end.
Fixpoint other_first (us : list model_use) : bool :=
  match us with
  | [] => false
  | u :: us' => if asks_model u then false else if needs_model u then true else other_first us'
  end.

(** The kernels that [kerch.kernel] offers, with the file of each (kernel/__init__.pyi:4-55). *)
Definition offered_kernels : list (string * string) :=
  [ ("_BaseKernel", "_base_kernel"); ("Kernel", "kernel"); ("Implicit", "implicit"); ("Explicit", "explicit");
    ("Distance", "distance.distance"); ("DistanceSquared", "distance.distance_squared"); ("SelectDistance", "distance.select_distance");
    ("Linear", "generic.linear"); ("RBF", "generic.rbf"); ("Laplacian", "generic.laplacian"); ("Cosine", "generic.cosine");
    ("Sigmoid", "generic.sigmoid"); ("Polynomial", "generic.polynomial"); ("RandomFeatures", "random_features.random_features");
    ("RFF", "random_features.rff"); ("RFLReLU", "random_features.rf_lrelu"); ("RFArcsinh", "random_features.rf_arcsinh");
    ("RFHyperbola", "random_features.rf_hyperbola"); ("RFStacked", "random_features.rf_stacked"); ("ExplicitNN", "network.explicit_nn");
    ("ImplicitNN", "network.implicit_nn"); ("Indicator", "time.indicator"); ("Hat", "time.hat"); ("AdditiveChi2", "vision.additive_chi_2");
    ("SkewedChi2", "vision.skewed_chi_2"); ("Epanechnikov", "statistics.epanechnikov"); ("Uniform", "statistics.uniform");
    ("Triangular", "statistics.triangular"); ("Quartic", "statistics.quartic"); ("Triweight", "statistics.triweight");
    ("Tricube", "statistics.tricube"); ("Logistic", "statistics.logistic"); ("Silverman", "statistics.silverman");
    ("Exponential", "statistics.exponential"); ("Nystrom", "nystrom"); ("factory", "_factory") ].
(** Files that may be named like a kernel, in any letter case. *)
Definition kernel_files : list string := dkeys kernel_table.
