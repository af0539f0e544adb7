(** The names that the classes of a level and of its kernel use on one object: since a level is
    its own kernel ([View.__new__], kerch/level/single_view/View.py:39-47, makes one class of
    both), an attribute of the same name is the same attribute, and the options of the constructor
    reach both.  Definitions only. *)
From Coq Require Import QArith.
From Verif Require Import Base Classes Abstract AbstractSpec.
Open Scope nat_scope.
Open Scope string_scope.
Open Scope list_scope.

(** For each class of the kernels and of the single-view levels, and [Sample]: the attributes that
    it assigns ([self.name = ...]), the properties that it defines with a setter, the options that
    its constructors read from [kwargs].  The classes that are not listed have none.  [Stochastic],
    [Cache], [Module] and [Logger], which levels and kernels share on purpose, are left out. *)
Definition names : list (string * (list string * list string * list string)) :=
  [ ("Sample", (["_default_sample_transform"; "_dim_input"; "_num_total"; "_sample"; "_sample_trainable"], ["dim_input"; "num_sample"; "sample"; "sample_trainable"], ["dim_input"; "idx_sample"; "num_sample"; "prop_sample"; "sample"; "sample_trainable"; "sample_transform"])); (* feature/sample.py:22 *)
    ("_Distance", (["_default_square"; "_sigma"; "_sigma_defined"; "_sigma_trainable"; "sigma"], ["sigma"; "sigma_trainable"], ["sigma"; "sigma_trainable"])); (* kernel/distance/_distance.py:12 *)
    ("Distance", (["sigma"], [], [])); (* kernel/distance/distance.py:10 *)
    ("DistanceSquared", (["sigma"], [], [])); (* kernel/distance/distance_squared.py:10 *)
    ("Minkowski", (["_minkowski_order"], [], ["minkowski_order"])); (* kernel/distance/minkowski.py:10 *)
    ("SelectDistance", ([], [], ["distance"])); (* kernel/distance/select_distance.py:7 *)
    ("Explicit", (["_dim_feature"], [], [])); (* kernel/explicit.py:18 *)
    ("Laplacian", ([], [], ["distance"; "squared"])); (* kernel/generic/laplacian.py:18 *)
    ("Polynomial", (["_alpha"; "_alpha_trainable"; "_beta"; "_beta_trainable"], ["alpha"], ["alpha"; "alpha_trainable"; "beta"; "beta_trainable"])); (* kernel/generic/polynomial.py:25 *)
    ("RBF", ([], [], ["distance"; "squared"])); (* kernel/generic/rbf.py:17 *)
    ("Sigmoid", (["_a"; "_b"; "_linear"; "_params_trainable"], [], ["a"; "b"; "params_trainable"])); (* kernel/generic/sigmoid.py:18 *)
    ("Wasserstein", (["_cost"; "_reg"; "cost"; "reg"], ["cost"; "reg"], ["cost"; "reg"])); (* kernel/generic/wasserstein.py:18 *)
    ("Kernel", (["_default_kernel_transform"], [], ["center"; "kernel_transform"; "normalize"])); (* kernel/kernel.py:24 *)
    ("ExplicitNN", (["_decoder"; "_encoder"; "_network_trainable"; "_recon_loss_func"], [], ["decoder"; "encoder"; "network_trainable"; "recon_loss_fun"])); (* kernel/network/explicit_nn.py:19 *)
    ("ImplicitNN", (["_network"], [], ["network"])); (* kernel/network/implicit_nn.py:17 *)
    ("Nystrom", (["_base_kernel"; "_dim"; "dim"], ["dim"], ["base_kernel"; "base_kernel_transform"; "base_kernel_type"; "dim"])); (* kernel/nystrom.py:19 *)
    ("RandomFeatures", (["_num_weights"; "_sigma"; "_sigma_trainable"; "_weights"; "num_weights"; "weights"], ["num_weights"; "sigma"; "sigma_trainable"; "weights"; "weights_trainable"], ["num_weights"; "sigma"; "sigma_trainable"; "weights"; "weights_trainable"])); (* kernel/random_features/random_features.py:22 *)
    ("RFHyperbola", (["_alpha"; "_beta"; "_delta"; "_gamma"; "alpha"; "beta"; "delta"; "gamma"], ["alpha"; "beta"; "delta"; "gamma"], ["alpha"; "beta"; "delta"; "gamma"])); (* kernel/random_features/rf_hyperbola.py:7 *)
    ("RFLReLU", (["_alpha"; "alpha"], ["alpha"], ["alpha"])); (* kernel/random_features/rf_lrelu.py:9 *)
    ("RFStacked", (["_inner_sample_transform"; "_kernels"; "_num_weights"; "_rf_kernel_type"], [], ["inner_sample_transform"; "num_weights"; "rf_kernel_type"])); (* kernel/random_features/rf_stacked.py:7 *)
    ("Exponential", (["_squared"], [], ["squared"])); (* kernel/statistics/exponential.py:19 *)
    ("Hat", (["_lag"; "_lag_trainable"; "_relu"], ["lag"; "lag_trainable"], ["lag"; "lag_trainable"])); (* kernel/time/hat.py:19 *)
    ("Indicator", (["_gamma"; "_gamma_trainable"; "_lag"; "_lag_trainable"; "_link_training"], ["gamma"; "lag"; "lag_trainable"], ["gamma"; "gamma_trainable"; "lag"; "lag_trainable"])); (* kernel/time/indicator.py:19 *)
    ("SkewedChi2", (["_p"; "_p_trainable"], ["p"], ["p"; "p_trainable"])); (* kernel/vision/skewed_chi_2.py:19 *)
    ("_KPCA", (["_dim_output"; "_prune_small_vals"; "_subloss_original"; "_subloss_projected"; "_vals"; "dim_output"; "primal_param"; "vals"], ["vals"], ["prune_small_vals"])); (* level/_KPCA.py:13 *)
    ("_Level", (["_eta"; "_parameter_related_cache"; "_watch_properties"; "target"; "watch_properties"], ["watch_properties"], ["eta"; "watch_properties"])); (* level/_Level.py:10 *)
    ("_PPCA", (["_feature_noise"; "_parameter_related_cache"; "_use_mean"; "_vals"; "feature_noise"; "use_mean"], ["_B_dual"; "_B_primal"; "_Inv_dual"; "_Inv_primal"; "feature_noise"; "mu"; "use_mean"; "vals"], ["feature_noise"; "use_mean"])); (* level/_PPCA.py:13 *)
    ("_View", (["_attached"; "_attached_primal_param"; "_dim_output"; "_dual_param"; "_level_trainable"; "_num_h"; "_primal_param"; "_representation"; "dual_param"; "primal_param"], ["dim_output"; "dual_param"; "dual_trainable"; "level_trainable"; "primal_param"], ["dim_output"; "hidden"; "level_trainable"; "representation"; "weight"])); (* level/_View.py:20 *)
    ("KPCA", (["hidden"], [], [])); (* level/single_view/KPCA.py:10 *)
    ("LSSVM", (["_gamma"; "_mse_loss"; "bias"; "weight"], ["gamma"], ["gamma"])); (* level/single_view/LSSVM.py:10 *)
    ("PPCA", (["_dim_output"; "dim_output"; "hidden"; "sigma"; "vals"; "weight"], [], [])); (* level/single_view/PPCA.py:10 *)
    ("Ridge", (["hidden"; "weight"], [], ["requires_bias"])); (* level/single_view/Ridge.py:6 *)
    ("View", (["_bias"; "_bias_trainable"; "_dim_output"; "_kappa"; "_kappa_sqrt"; "_mask"; "_param_trainable"; "_requires_bias"; "_target"; "_weight"; "bias"; "target"; "weight"], ["bias"; "kappa"; "level_trainable"; "requires_bias"; "target"], ["bias"; "bias_trainable"; "kappa"; "kernel_class"; "kernel_type"; "requires_bias"; "target"])) ]. (* level/single_view/View.py:23 *)
Definition assigned (c : string) : list string := match dget names c with Some (a, _, _) => a | None => [] end.
Definition settable (c : string) : list string := match dget names c with Some (_, p, _) => p | None => [] end.
Definition options (c : string) : list string := match dget names c with Some (_, _, o) => o | None => [] end.
Definition names_of (c : cls) : list string := flat_map (fun x => assigned x ++ settable x ++ options x) c.
(** The classes that come with the level, and with the kernel. *)
Definition level_side : list string := ["KPCA"; "_KPCA"; "LSSVM"; "Ridge"; "PPCA"; "WPCA"; "_PPCA"; "Level"; "_Level"; "View"; "_View"].
Definition level_names (l : string) : list string := names_of (filter (fun c => smem c level_side) (cls_of l)).
Definition kernel_names (k : string) (d : option kdistance) : list string :=
  match kerch_kernel k d with Ok c => names_of c | Err _ => [] end.

(** *** Attributes of an object: one dictionary, whichever class the method comes from. *)
Inductive side : Type := Level_ | Kernel_.
Inductive access (A : Type) : Type := Assign (s : side) (n : string) (v : A) | Read (s : side) (n : string).
Arguments Assign {A}. Arguments Read {A}.
Definition answer {A} (o : dict A) (x : access A) : option A := match x with Assign _ _ v => Some v | Read _ n => dget o n end.
Definition after_access {A} (o : dict A) (x : access A) : dict A := match x with Assign _ n v => dset o n v | Read _ _ => o end.
Fixpoint on_object {A} (o : dict A) (xs : list (access A)) : list (option A) :=
  match xs with [] => [] | x :: xs' => answer o x :: on_object (after_access o x) xs' end.

Open Scope Q_scope.
(** *** The hyperparameter gamma.  Attributes that are numbers. *)
Notation object := (dict Q).
Definition given (o : option Q) (default : Q) : Q := match o with Some v => v | None => default end.
(** [Indicator.__init__] (kerch/kernel/time/indicator.py:57-78) and [LSSVM.__init__]
    (kerch/level/single_view/LSSVM.py:22-26), the part after [super().__init__]; the regularisation
    of a level of another class does not exist. *)
Definition indicator_init (lag gamma : option Q) (o : object) : object :=
  let l := given lag 1 in dset (dset o "_lag" l) "_gamma" (given gamma (2 * l + 1)).
Definition level_init (l : string) (gamma : option Q) (o : object) : object :=
  if smem "LSSVM" (cls_of l) then dset o "_gamma" (given gamma 1) else o.
(** [level(kernel_type='indicator', lag=..., gamma=...)]: the constructors of the kernel run inside
    [super().__init__] of that of the level. *)
Definition create_indicator (l : string) (lag gamma : option Q) : object := level_init l gamma (indicator_init lag gamma []).
(** [Indicator._implicit] (indicator.py:127-140) when the lag is not trainable, at two points. *)
Definition indicator_entry (o : object) (x y : Q) : Q :=
  let d := x - y in
  if Qeq_bool d 0 then match dget o "_gamma" with Some g => g | None => 0 end
  else if Qle_bool (if Qle_bool 0 d then d else - d) (match dget o "_lag" with Some l => l | None => 0 end) then 1 else 0.

(** [object.name = value] for the name gamma: the setter that the class finds, [LSSVM.gamma]
    (LSSVM.py:35-38; it reads the device of [_gamma] first), [RFHyperbola.gamma]
    (kerch/kernel/random_features/rf_hyperbola.py:53-56) or [Indicator.gamma] (indicator.py:122-125). *)
Definition set_gamma (c : cls) (v : Q) (o : object) : result object :=
  match resolve settable c "gamma" with
  | Some "RFHyperbola" => if Qle_bool v 0 then Err EAssertionError else Ok (dset o "_gamma" v)
  | Some _ => match dget o "_gamma" with None => Err EAttributeError | Some _ => Ok (dset o "_gamma" v) end
  | None => Ok (dset o "gamma" v)
  end.
Definition get_gamma (o : object) : option Q := dget o "_gamma".
(** [RFHyperbola.__init__] (rf_hyperbola.py:20-25) and its other setters (28-65); [self.gamma] at line
    44 is the value that was just assigned. *)
Definition positive_attribute (n : string) (v : Q) (o : object) : result object :=
  if Qle_bool v 0 then Err EAssertionError else Ok (dset o n v).
Definition hyperbola_init (c : cls) (alpha gamma delta beta : option Q) (o : object) : result object :=
  bind (positive_attribute "_alpha" (given alpha 1) o) (fun o =>
  bind (set_gamma c (given gamma 1) o) (fun o =>
  bind (positive_attribute "_delta" (given delta 1) o) (fun o =>
  if Qle_bool (given beta 2) 0 then Err EAssertionError
  else if Qle_bool (given beta 2 * given beta 2) (given alpha 1 * given gamma 1) then Err EAssertionError
  else Ok (dset o "_beta" (given beta 2))))).
(** [kernel(...)] and [level(kernel_type='rf_hyperbola', ...)], with the classes of [c]. *)
Definition create_hyperbola (c : cls) (l : option string) (alpha gamma delta beta : option Q) : result object :=
  bind (hyperbola_init c alpha gamma delta beta []) (fun o =>
    Ok (match l with Some l => level_init l gamma o | None => o end)).
