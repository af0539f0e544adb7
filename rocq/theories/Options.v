(** The options of the constructors: each class of the chain completes the options with its
    defaults ([kwargs_decorator], kerch/utils/decorators.py:5-27), reads some of them and passes the
    others to the next one ([super().__init__( *args, **kwargs)]).  Definitions only. *)
From Verif Require Import Base Classes Abstract AbstractSpec.
Open Scope nat_scope.
Open Scope string_scope.
Open Scope list_scope.

(** Values of options: [None], booleans, anything else (as the text in the code when it is a
    default; different from the booleans, and true when it is tested). *)
Inductive value : Type := VNone | VTrue | VFalse | VOther (s : string).
Definition is_value (v w : value) : bool :=
  match v, w with VNone, VNone | VTrue, VTrue | VFalse, VFalse => true | VOther a, VOther b => String.eqb a b | _, _ => false end.
(** [{ **a, **b}], [kwargs[n] = v] and the dictionary without [n]; the first binding of a name is
    the one that counts. *)
Definition over (a b : dict value) : dict value := b ++ a.
Definition without (n : string) (d : dict value) : dict value := filter (fun x => negb (String.eqb (fst x) n)) d.

(** A constructor: the defaults of its decorator, what it reads before it calls the next one, what
    it reads after.  [("n", Some v)] is [kwargs.pop('n', v)], [("n", None)] is [kwargs['n']]. *)
Record layer : Type := Layer { l_defaults : dict value; l_before : list (string * option value); l_after : list (string * option value) }.
Definition read_option (kw : dict value) (r : string * option value) : result (value * dict value) :=
  match snd r with
  | Some v => Ok (match dget kw (fst r) with Some w => w | None => v end, without (fst r) kw)
  | None => match dget kw (fst r) with Some w => Ok (w, kw) | None => Err EKeyError end
  end.
Fixpoint read_options (c : string) (kw : dict value) (rs : list (string * option value)) : result (list (string * string * value) * dict value) :=
  match rs with
  | [] => Ok ([], kw)
  | r :: rs' => bind (read_option kw r) (fun x => bind (read_options c (snd x) rs') (fun y => Ok ((c, fst r, fst x) :: fst y, snd y)))
  end.

(** The constructors that have a condition on an option before the next one is called: they want
    to warn ([self._logger.warning]) but the logger is only made by the last constructor of the
    chain ([Logger.__init__], kerch/feature/logger.py:36-48), so that reading [self._logger] is an
    [AttributeError].  [RBF.__init__] (kerch/kernel/generic/rbf.py:53-62), [Laplacian.__init__]
    (laplacian.py:43-53, which then sets the option), [Ridge.__init__]
    (kerch/level/single_view/Ridge.py:12-16). *)
Definition warns (c : string) (kw : dict value) : bool :=
  if String.eqb c "RBF" then match dget kw "squared" with Some VNone | Some VTrue | None => false | Some _ => true end
  else if String.eqb c "Laplacian" then match dget kw "squared" with Some VNone | Some VFalse | None => false | Some _ => true end
  else if String.eqb c "Ridge" then match dget kw "requires_bias" with Some VNone | Some VFalse | None => false | Some _ => true end
  else false.
Definition forced (c : string) : dict value := if String.eqb c "Laplacian" then [("squared", VFalse)] else [].

(** The constructors of the classes of [mro], in that order: what each of them reads. *)
Fixpoint construct (tb : string -> layer) (mro : cls) (kw : dict value) : result (list (string * string * value)) :=
  match mro with
  | [] => Ok []
  | c :: rest =>
      let kw1 := over (l_defaults (tb c)) kw in
      if warns c kw1 then Err EAttributeError
      else bind (read_options c kw1 (l_before (tb c))) (fun x =>
           let kw2 := over (snd x) (forced c) in
           bind (construct tb rest kw2) (fun rest_read =>
           bind (read_options c kw2 (l_after (tb c))) (fun y => Ok (fst x ++ rest_read ++ fst y))))
  end.

(** The constructors of the kernels, of the single-view levels and of the features.  The other
    classes have none, or one that only calls the next.  An option that is only read under a
    condition ([dim_input] and [num_sample] of [Sample], [num_weights] of [RandomFeatures]) is
    listed as if it was always read; the second way to call the next constructor in [Nystrom]
    (nystrom.py:61-64, with an existing base kernel) is not modelled. *)
Definition layers : list (string * layer) :=
  [ ("_KPCA", Layer [] [] [("prune_small_vals", Some VFalse)]); (* level/_KPCA.py:21 *)
    ("_Level", Layer [] [] [("eta", Some (VOther "1.0")); ("watch_properties", Some (VOther "[]"))]); (* level/_Level.py:22 *)
    ("_PPCA", Layer [("use_mean", VFalse); ("feature_noise", VNone)] [] [("use_mean", None); ("feature_noise", None)]); (* level/_PPCA.py:16 *)
    ("_View", Layer [] [] [("dim_output", Some VNone); ("representation", Some (VOther "'dual'")); ("weight", Some VNone); ("hidden", Some VNone); ("level_trainable", Some VFalse)]); (* level/_View.py:44 *)
    ("LSSVM", Layer [("requires_bias", VTrue)] [] [("gamma", Some (VOther "1.0"))]); (* level/single_view/LSSVM.py:22 *)
    ("Ridge", Layer [("requires_bias", VFalse)] [("requires_bias", None)] []); (* level/single_view/Ridge.py:11 *)
    ("View", Layer [] [] [("kappa", Some (VOther "1.0")); ("bias", Some VNone); ("bias_trainable", Some VFalse); ("requires_bias", Some VFalse); ("target", Some VNone)]); (* level/single_view/View.py:52 *)
    ("Cache", Layer [] [] [("cache_level", Some (VOther "'normal'"))]); (* feature/cache.py:34 *)
    ("Logger", Layer [] [] [("logger_name", Some VNone); ("logging_level", Some VNone)]); (* feature/logger.py:36 *)
    ("Sample", Layer [] [] [("sample", Some VNone); ("dim_input", Some VNone); ("num_sample", Some VNone); ("sample_trainable", Some VFalse); ("sample_transform", Some (VOther "[]")); ("idx_sample", Some VNone); ("prop_sample", Some VNone)]); (* feature/sample.py:55 *)
    ("Kernel", Layer [("center", VFalse); ("normalize", VFalse)] [] [("kernel_transform", Some (VOther "[]")); ("center", None); ("normalize", None)]); (* kernel/kernel.py:39 *)
    ("Nystrom", Layer [] [("base_kernel_type", Some (VOther "utils.DEFAULT_KERNEL_TYPE")); ("base_kernel", Some VNone)] [("base_kernel_transform", Some (VOther "[]")); ("dim", Some VNone)]); (* kernel/nystrom.py:42 *)
    ("Exponential", Layer [] [] [("squared", Some VTrue)]); (* kernel/statistics/exponential.py:44 *)
    ("ExplicitNN", Layer [] [("network_trainable", Some VTrue)] [("encoder", Some VNone); ("decoder", Some VNone); ("recon_loss_fun", Some (VOther "torch.nn.MSELoss()"))]); (* kernel/network/explicit_nn.py:43 *)
    ("ImplicitNN", Layer [("network", VNone)] [] [("network", None)]); (* kernel/network/implicit_nn.py:36 *)
    ("_Distance", Layer [] [] [("sigma", Some VNone); ("sigma_trainable", Some VFalse)]); (* kernel/distance/_distance.py:26 *)
    ("Minkowski", Layer [] [] [("minkowski_order", Some VNone)]); (* kernel/distance/minkowski.py:16 *)
    ("Laplacian", Layer [] [("squared", Some VNone)] []); (* kernel/generic/laplacian.py:43 *)
    ("Polynomial", Layer [("alpha", VOther "2.0"); ("alpha_trainable", VFalse); ("beta", VOther "1.0"); ("beta_trainable", VFalse)] [("alpha", Some (VOther "2.0")); ("beta", Some (VOther "1.0"))] [("alpha_trainable", Some VFalse); ("beta_trainable", Some VFalse)]); (* kernel/generic/polynomial.py:79 *)
    ("RBF", Layer [] [("squared", Some VNone)] []); (* kernel/generic/rbf.py:53 *)
    ("Sigmoid", Layer [("a", VOther "1.0"); ("b", VOther "0.0"); ("params_trainable", VFalse)] [] [("params_trainable", None); ("a", None); ("b", None)]); (* kernel/generic/sigmoid.py:41 *)
    ("Wasserstein", Layer [("cost", VOther "'euclidean'"); ("reg", VOther "0.1")] [] [("cost", None); ("reg", None)]); (* kernel/generic/wasserstein.py:33 *)
    ("SkewedChi2", Layer [] [("p", Some (VOther "0.0"))] [("p_trainable", Some VFalse)]); (* kernel/vision/skewed_chi_2.py:33 *)
    ("Hat", Layer [("lag", VOther "1"); ("lag_trainable", VFalse)] [("lag", None)] [("lag_trainable", None)]); (* kernel/time/hat.py:41 *)
    ("Indicator", Layer [] [("lag", Some (VOther "1"))] [("lag_trainable", Some VFalse); ("gamma_trainable", Some VFalse); ("gamma", Some VNone)]); (* kernel/time/indicator.py:57 *)
    ("RandomFeatures", Layer [] [] [("weights_trainable", Some VFalse); ("weights", Some VNone); ("num_weights", Some (VOther "1")); ("sigma_trainable", Some VFalse); ("sigma", Some (VOther "1.0"))]); (* kernel/random_features/random_features.py:54 *)
    ("RFHyperbola", Layer [] [] [("alpha", Some (VOther "1")); ("gamma", Some (VOther "1")); ("delta", Some (VOther "1")); ("beta", Some (VOther "2"))]); (* kernel/random_features/rf_hyperbola.py:20 *)
    ("RFLReLU", Layer [] [] [("alpha", Some (VOther "0.1"))]); (* kernel/random_features/rf_lrelu.py:10 *)
    ("RFStacked", Layer [] [] [("rf_kernel_type", Some (VOther "'rf_lrelu'")); ("num_weights", Some (VOther "[100]")); ("inner_sample_transform", Some (VOther "['standardize']"))]) ]. (* kernel/random_features/rf_stacked.py:8 *)
Definition layer_of (c : string) : layer := match dget layers c with Some l => l | None => Layer [] [] [] end.
