(** The hyperparameters that kernels and levels report: [hparams_fixed] and [hparams_variable].
    Definitions only.

    Every class writes a dictionary display, most often [{own, **super(C, self).hparams_...}],
    which is evaluated from left to right; a key that comes again takes the later value.  Some are
    methods instead of properties; reading them gives a method, which cannot be unpacked.
    The tables below are read off the source. *)
From Verif Require Import Base.
Open Scope nat_scope.
Open Scope string_scope.
Open Scope list_scope.

Inductive which : Type := HFixed | HVariable.
(** A string that is written, or an attribute of the object that is read. *)
Inductive source : Type := Name (s : string) | Attr (a : string).
(** Whether it is a property, its own entries, and what is unpacked after these. *)
Record listing : Type := Listing { l_property : bool; l_own : list (string * source); l_super : option (string * which) }.

Section Hparams.
  Context {V : Type}.
  Inductive hval : Type := HName (s : string) | HVal (v : V).
  Variable tbl : which -> string -> option listing.
  Variable read : string -> result V.
  Definition read_source (s : source) : result hval :=
    match s with Name n => Ok (HName n) | Attr a => bind (read a) (fun v => Ok (HVal v)) end.
  Fixpoint own_entries (es : list (string * source)) (d : dict hval) : result (dict hval) :=
    match es with
    | [] => Ok d
    | (k, s) :: es' => bind (read_source s) (fun v => own_entries es' (dset d k v))
    end.
  Definition unpack (d : dict hval) (r : dict hval) : dict hval := fold_left (fun d kv => dset d (fst kv) (snd kv)) r d.
  Inductive answer : Type := ADict (d : dict hval) | AMethod.
  (** [hparams None l w]: the attribute, found in the classes [l]; [hparams (Some C) l w]: that of
      [super(C, self)]. *)
  Fixpoint hparams (skip : option string) (l : list string) (w : which) : result answer :=
    match l with
    | [] => Err EAttributeError
    | c :: l' =>
        match skip with
        | Some s => if String.eqb c s then hparams None l' w else hparams skip l' w
        | None =>
            match tbl w c with
            | None => hparams None l' w
            | Some (Listing false _ _) => Ok AMethod
            | Some (Listing true own sup) =>
                bind (own_entries own []) (fun d =>
                match sup with
                | None => Ok (ADict d)
                | Some (s, w') =>
                    bind (hparams (if String.eqb c s then None else Some s) l' w') (fun r =>
                    match r with
                    | ADict r => Ok (ADict (unpack d r))
                    | AMethod => Err ETypeError
                    end)
                end)
            end
        end
    end.
End Hparams.
Arguments hval V : clear implicits.
Arguments answer V : clear implicits.

(** *** The classes of kerch.  ["constraint"] stands for a variable of the method (level/_View.py:71). *)
Definition fixed_table : list (string * listing) :=
  [
    ("Module", Listing true [] None);  (* feature/module.py:174-180 *)
    ("Sample", Listing true [("Input dimension", Attr "dim_input"); ("Trainable sample", Attr "_sample_trainable"); ("Default sample transforms", Attr "_default_sample_transform")] (Some ("Sample", HFixed)));  (* feature/sample.py:281-285 *)
    ("_BaseKernel", Listing true [] (Some ("_BaseKernel", HFixed)));  (* kernel/_base_kernel.py:39-43 *)
    ("_Distance", Listing true [("Trainable sigma", Attr "sigma_trainable")] (Some ("_Distance", HFixed)));  (* kernel/distance/_distance.py:80-82 *)
    ("Cosine", Listing true [("Kernel", Name "Cosine")] (Some ("Cosine", HFixed)));  (* kernel/generic/cosine.py:38-39 *)
    ("Laplacian", Listing true [("Kernel", Name "Laplacian")] (Some ("Laplacian", HFixed)));  (* kernel/generic/laplacian.py:61-62 *)
    ("Linear", Listing false [("Kernel", Name "Linear")] (Some ("Linear", HFixed)));  (* kernel/generic/linear.py:41-42 *)
    ("Polynomial", Listing true [("Kernel", Name "Polynomial")] None);  (* kernel/generic/polynomial.py:179-180 *)
    ("RBF", Listing true [("Kernel", Name "RBF")] (Some ("RBF", HFixed)));  (* kernel/generic/rbf.py:70-71 *)
    ("Sigmoid", Listing true [("Kernel", Name "Sigmoid")] (Some ("Sigmoid", HFixed)));  (* kernel/generic/sigmoid.py:60-61 *)
    ("Wasserstein", Listing true [("Kernel", Name "Wasserstein Exponential Kernel")] (Some ("Wasserstein", HFixed)));  (* kernel/generic/wasserstein.py:44-45 *)
    ("Kernel", Listing true [("Default kernel transforms", Attr "_default_kernel_transform")] (Some ("Kernel", HFixed)));  (* kernel/kernel.py:69-70 *)
    ("ExplicitNN", Listing false [("Kernel", Name "Explicit Neural Network"); ("Trainable Feature Map", Attr "_network_trainable")] (Some ("ExplicitNN", HFixed)));  (* kernel/network/explicit_nn.py:71-74 *)
    ("ImplicitNN", Listing true [("Kernel", Name "Implicit NN")] (Some ("ImplicitNN", HFixed)));  (* kernel/network/implicit_nn.py:48-49 *)
    ("Nystrom", Listing false [("Kernel", Name "Nystrom"); ("Base Kernel", Attr "_base_kernel.hparams_fixed['Kernel']")] (Some ("Nystrom", HFixed)));  (* kernel/nystrom.py:105-108 *)
    ("RFArcsinh", Listing true [("Kernel", Name "Random Features Arcsinh")] (Some ("RandomFeatures", HFixed)));  (* kernel/random_features/rf_arcsinh.py:15-16 *)
    ("RFHyperbola", Listing true [("Kernel", Name "Random Features Hyperbola")] (Some ("RandomFeatures", HFixed)));  (* kernel/random_features/rf_hyperbola.py:71-72 *)
    ("RFLReLU", Listing true [("Kernel", Name "Random Leaky ReLU Features"); ("Kernel Negative Slope", Attr "alpha")] (Some ("RandomFeatures", HFixed)));  (* kernel/random_features/rf_lrelu.py:18-21 *)
    ("RFStacked", Listing true [("Kernel", Name "Random Features Stacked"); ("Number of Weights", Attr "num_weights"); ("RF Type", Attr "_rf_kernel_type"); ("Inner Sample Transform", Attr "_inner_sample_transform")] (Some ("RFStacked", HFixed)));  (* kernel/random_features/rf_stacked.py:62-67 *)
    ("RFF", Listing true [("Kernel", Name "Random Fourier Features")] (Some ("RandomFeatures", HFixed)));  (* kernel/random_features/rff.py:55-57 *)
    ("Epanechnikov", Listing true [("Kernel", Name "Epanechnikov")] (Some ("Epanechnikov", HVariable)));  (* kernel/statistics/epanechnikov.py:33-35 *)
    ("Exponential", Listing true [("Kernel", Name "Exponential"); ("Squared exp. distance", Attr "_squared")] (Some ("Exponential", HFixed)));  (* kernel/statistics/exponential.py:52-55 *)
    ("Logistic", Listing true [("Kernel", Name "Logistic")] (Some ("Logistic", HVariable)));  (* kernel/statistics/logistic.py:24-26 *)
    ("Quartic", Listing true [("Kernel", Name "Quartic")] (Some ("Quartic", HVariable)));  (* kernel/statistics/quartic.py:33-35 *)
    ("Silverman", Listing true [("Kernel", Name "Silverman")] (Some ("Silverman", HVariable)));  (* kernel/statistics/silverman.py:30-32 *)
    ("Triangular", Listing true [("Kernel", Name "Triangular")] (Some ("Triangular", HVariable)));  (* kernel/statistics/triangular.py:33-35 *)
    ("Tricube", Listing true [("Kernel", Name "Tricube")] (Some ("Tricube", HVariable)));  (* kernel/statistics/tricube.py:33-35 *)
    ("Triweight", Listing true [("Kernel", Name "Triweight")] (Some ("Triweight", HVariable)));  (* kernel/statistics/triweight.py:33-35 *)
    ("Uniform", Listing true [("Kernel", Name "Uniform")] (Some ("Uniform", HVariable)));  (* kernel/statistics/uniform.py:33-35 *)
    ("Hat", Listing true [("Kernel", Name "Hat")] (Some ("Hat", HFixed)));  (* kernel/time/hat.py:87-88 *)
    ("Indicator", Listing true [("Kernel", Name "Indicator")] (Some ("Indicator", HFixed)));  (* kernel/time/indicator.py:115-116 *)
    ("AdditiveChi2", Listing true [("Kernel", Name "Additive Chi Squared")] (Some ("AdditiveChi2", HFixed)));  (* kernel/vision/additive_chi_2.py:38-39 *)
    ("SkewedChi2", Listing true [("Kernel", Name "Skewed Chi Squred"); ("Trainable p", Attr "_p_trainable")] (Some ("SkewedChi2", HFixed)));  (* kernel/vision/skewed_chi_2.py:64-65 *)
    ("_Level", Listing true [("Level type", Attr "__class__.__name__"); ("Level eta", Attr "eta")] (Some ("_Level", HFixed)));  (* level/_Level.py:35-38 *)
    ("_View", Listing true [("Output dimension", Attr "dim_output"); ("Representation", Attr "representation"); ("Parameters trainable", Attr "_level_trainable"); ("Constraint", Attr "constraint")] (Some ("_View", HFixed)))  (* level/_View.py:70-76 *)
  ].
Definition variable_table : list (string * listing) :=
  [
    ("Module", Listing true [] None);  (* feature/module.py:156-171 *)
    ("Sample", Listing true [] (Some ("Sample", HVariable)));  (* feature/sample.py:288-289 *)
    ("_BaseKernel", Listing true [] (Some ("_BaseKernel", HVariable)));  (* kernel/_base_kernel.py:46-50 *)
    ("_Distance", Listing true [("Kernel parameter sigma", Attr "sigma")] (Some ("_Distance", HVariable)));  (* kernel/distance/_distance.py:75-77 *)
    ("Polynomial", Listing true [("Kernel alpha", Attr "alpha"); ("Kernel beta", Attr "beta")] (Some ("Polynomial", HVariable)));  (* kernel/generic/polynomial.py:173-176 *)
    ("Sigmoid", Listing true [("Kernel parameter a", Attr "_a"); ("Kernel parameter b", Attr "_b")] None);  (* kernel/generic/sigmoid.py:55-57 *)
    ("RandomFeatures", Listing true [("Random Features Weights", Attr "num_weights")] None);  (* kernel/random_features/random_features.py:183-184 *)
    ("Hat", Listing true [("Kernel lag", Attr "lag")] None);  (* kernel/time/hat.py:83-84 *)
    ("Indicator", Listing true [("Kernel lag", Attr "lag"); ("Kernel gamma", Attr "gamma")] None);  (* kernel/time/indicator.py:84-86 *)
    ("AdditiveChi2", Listing true [] None);  (* kernel/vision/additive_chi_2.py:34-35 *)
    ("SkewedChi2", Listing true [("Kernel parameter p", Attr "p")] None);  (* kernel/vision/skewed_chi_2.py:60-61 *)
    ("_Level", Listing true [] (Some ("_Level", HVariable)))  (* level/_Level.py:41-42 *)
  ].
(** Run-time classes have the listings of the class that they are made from ([fs]). *)
Definition kerch_table (fs : list (string * string)) (w : which) (c : string) : option listing :=
  dget (match w with HFixed => fixed_table | HVariable => variable_table end)
       (match dget fs c with Some b => b | None => c end).
