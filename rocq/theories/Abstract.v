(** Which classes of kerch can be instantiated: the abstract methods, and the objects that Python
    refuses to make.  [Module.__new__] (kerch/feature/module.py:21-22) is [object.__new__], which
    raises [TypeError] when the class still has an abstract method; all the classes have the
    metaclass [ABCMeta] (module.py:20).  Definitions only.  The constructors ([__init__]), which
    run afterwards, are not here. *)
From Verif Require Import Base Classes.
Open Scope nat_scope.
Open Scope string_scope.
Open Scope list_scope.

(** A class: its resolution order and its [__abstractmethods__]. *)
Record klass : Type := Klass { k_mro : cls; k_abs : list string }.

(** [defs c] are the attributes of the body of the class [c] and [abs c] those that are marked
    with [@abstractmethod]. *)
Definition still_abstract (defs abs : string -> list string) (c : cls) (n : string) : bool :=
  match resolve defs c n with Some d => smem n (abs d) | None => false end.
(** [ABCMeta.__new__]: the abstract methods of the body, and those of the bases that are still
    abstract when the class looks them up. *)
Definition class_statement (defs abs : string -> list string) (n : string) (bases : list klass) : result klass :=
  bind (derive n (map k_mro bases)) (fun m =>
    Ok (Klass m (abs n ++ filter (still_abstract defs abs m) (flat_map k_abs bases)))).
(** [object.__new__]. *)
Definition instantiate (k : klass) : result cls :=
  match k_abs k with [] => Ok (k_mro k) | _ :: _ => Err ETypeError end.

(** *** The bodies of the classes of kerch: the concrete and the abstract definitions, restricted
    to the names that are abstract in some class (the other names cannot make a class abstract). *)
Definition bodies : list (string * (list string * list string)) :=
  [ ("object", (["__init__"; "__str__"], [])); (* Python, torch *)
    ("torch.nn.Module", (["__init__"], [])); (* Python, torch *)
    ("Logger", (["__init__"], [])); (* feature/logger.py:18 *)
    ("Module", ([], ["__init__"])); (* feature/module.py:17 *)
    ("Cache", (["__init__"], [])); (* feature/cache.py:17 *)
    ("Stochastic", ([], ["__init__"])); (* feature/stochastic.py:21 *)
    ("Sample", (["__init__"], [])); (* feature/sample.py:22 *)
    ("_BaseKernel", (["__init__"; "phi"; "k"; "K"], ["__str__"; "explicit"; "dim_feature"; "_implicit"; "_explicit"])); (* kernel/_base_kernel.py:21 *)
    ("Kernel", (["phi"; "k"], ["__init__"])); (* kernel/kernel.py:24 *)
    ("Implicit", (["__init__"; "__str__"; "explicit"; "dim_feature"; "_explicit"], ["_implicit"])); (* kernel/implicit.py:22 *)
    ("Explicit", (["__init__"; "__str__"; "explicit"; "dim_feature"; "_implicit"], ["_explicit"])); (* kernel/explicit.py:18 *)
    ("RandomFeatures", (["__init__"; "__str__"; "explicit"; "dim_feature"; "_implicit"; "_explicit"], ["activation_fn"])); (* kernel/random_features/random_features.py:22 *)
    ("_Distance", (["__init__"; "__str__"], ["_determine_sigma"; "_dist_sigma"; "_square_dist_sigma"; "_square_dist"; "_dist"])); (* kernel/distance/_distance.py:12 *)
    ("SelectDistance", (["__init__"; "__str__"], [])); (* kernel/distance/select_distance.py:7 *)
    ("Distance", (["__init__"; "_determine_sigma"; "_dist_sigma"; "_square_dist_sigma"; "_square_dist"], ["_dist"])); (* kernel/distance/distance.py:10 *)
    ("DistanceSquared", (["__init__"; "_determine_sigma"; "_dist_sigma"; "_square_dist_sigma"; "_dist"], ["_square_dist"])); (* kernel/distance/distance_squared.py:10 *)
    ("Euclidean", (["__init__"; "__str__"; "_square_dist"], [])); (* kernel/distance/euclidean.py:10 *)
    ("Manhattan", (["__init__"; "__str__"; "_dist"], [])); (* kernel/distance/manhattan.py:10 *)
    ("Chebyshev", (["__init__"; "__str__"; "_dist"], [])); (* kernel/distance/chebyshev.py:10 *)
    ("Minkowski", (["__init__"; "__str__"; "_dist"], [])); (* kernel/distance/minkowski.py:10 *)
    ("distance.Wasserstein", (["__init__"; "__str__"; "_dist"], [])); (* kernel/distance/wasserstein.py:10 *)
    ("Exponential", (["__init__"; "__str__"; "_implicit"], [])); (* kernel/statistics/exponential.py:19 *)
    ("Uniform", (["__init__"; "__str__"; "_implicit"], [])); (* kernel/statistics/uniform.py:8 *)
    ("Triangular", (["__init__"; "__str__"; "_implicit"], [])); (* kernel/statistics/triangular.py:8 *)
    ("Epanechnikov", (["__init__"; "__str__"; "_implicit"], [])); (* kernel/statistics/epanechnikov.py:8 *)
    ("Quartic", (["__init__"; "__str__"; "_implicit"], [])); (* kernel/statistics/quartic.py:8 *)
    ("Triweight", (["__init__"; "__str__"; "_implicit"], [])); (* kernel/statistics/triweight.py:8 *)
    ("Tricube", (["__init__"; "__str__"; "_implicit"], [])); (* kernel/statistics/tricube.py:8 *)
    ("Logistic", (["__init__"; "__str__"; "_implicit"], [])); (* kernel/statistics/logistic.py:8 *)
    ("Silverman", (["__init__"; "__str__"; "_implicit"], [])); (* kernel/statistics/silverman.py:9 *)
    ("RBF", (["__init__"; "__str__"], [])); (* kernel/generic/rbf.py:17 *)
    ("Laplacian", (["__init__"; "__str__"], [])); (* kernel/generic/laplacian.py:18 *)
    ("Wasserstein", (["__init__"; "__str__"; "_square_dist"], [])); (* kernel/generic/wasserstein.py:18 *)
    ("Polynomial", (["__init__"; "__str__"; "explicit"; "dim_feature"; "_implicit"; "_explicit"; "k"], [])); (* kernel/generic/polynomial.py:25 *)
    ("Linear", (["__init__"; "__str__"; "dim_feature"; "_explicit"], [])); (* kernel/generic/linear.py:18 *)
    ("Cosine", (["__init__"; "__str__"], [])); (* kernel/generic/cosine.py:16 *)
    ("Sigmoid", (["__init__"; "__str__"; "_implicit"], [])); (* kernel/generic/sigmoid.py:18 *)
    ("Nystrom", (["__init__"; "__str__"; "dim_feature"; "_explicit"], [])); (* kernel/nystrom.py:19 *)
    ("ExplicitNN", (["__init__"; "__str__"; "_explicit"; "loss"], [])); (* kernel/network/explicit_nn.py:19 *)
    ("ImplicitNN", (["__init__"; "__str__"; "_implicit"], [])); (* kernel/network/implicit_nn.py:17 *)
    ("SkewedChi2", (["__init__"; "__str__"; "_implicit"], [])); (* kernel/vision/skewed_chi_2.py:19 *)
    ("AdditiveChi2", (["__init__"; "__str__"; "_implicit"], [])); (* kernel/vision/additive_chi_2.py:18 *)
    ("Indicator", (["__init__"; "__str__"; "_implicit"], [])); (* kernel/time/indicator.py:19 *)
    ("Hat", (["__init__"; "__str__"; "_implicit"], [])); (* kernel/time/hat.py:19 *)
    ("RFF", (["__init__"; "__str__"; "dim_feature"; "activation_fn"], [])); (* kernel/random_features/rff.py:21 *)
    ("RFArcsinh", (["__init__"; "__str__"; "activation_fn"], [])); (* kernel/random_features/rf_arcsinh.py:7 *)
    ("RFLReLU", (["__init__"; "__str__"; "activation_fn"], [])); (* kernel/random_features/rf_lrelu.py:9 *)
    ("RFHyperbola", (["__init__"; "__str__"; "activation_fn"], [])); (* kernel/random_features/rf_hyperbola.py:7 *)
    ("RFStacked", (["__init__"; "__str__"; "_explicit"], [])); (* kernel/random_features/rf_stacked.py:7 *)
    ("_View", (["__init__"], ["dim_feature"; "phi"; "k"; "K"; "_reset_primal"; "_update_dual_from_primal"; "H"; "W"; "_forward"])); (* level/_View.py:20 *)
    ("_Level", (["__init__"], ["_solve_primal"; "_solve_dual"; "loss"])); (* level/_Level.py:10 *)
    ("_KPCA", (["__init__"; "H"; "W"; "_solve_primal"; "_solve_dual"; "loss"], [])); (* level/_KPCA.py:13 *)
    ("_PPCA", (["__init__"; "loss"], [])); (* level/_PPCA.py:13 *)
    ("View", (["__init__"; "__str__"; "dim_feature"; "phi"; "k"; "K"; "_reset_primal"; "_update_dual_from_primal"; "_forward"], [])); (* level/single_view/View.py:23 *)
    ("Level", (["__init__"], ["loss"])); (* level/single_view/Level.py:9 *)
    ("KPCA", (["__init__"; "__str__"; "_update_dual_from_primal"], [])); (* level/single_view/KPCA.py:10 *)
    ("PPCA", (["__init__"; "_solve_primal"; "_solve_dual"], [])); (* level/single_view/PPCA.py:10 *)
    ("WPCA", (["__init__"], [])); (* level/single_view/WPCA.py:4 *)
    ("LSSVM", (["__init__"; "__str__"; "_update_dual_from_primal"; "H"; "W"; "_solve_primal"; "_solve_dual"; "loss"], [])); (* level/single_view/LSSVM.py:10 *)
    ("Ridge", (["__init__"; "_solve_primal"; "_solve_dual"], [])); (* level/single_view/Ridge.py:6 *)
    ("MultiView", (["__init__"; "__str__"; "dim_feature"; "phi"; "k"; "K"; "_reset_primal"; "_update_dual_from_primal"; "_forward"], [])); (* level/multi_view/MultiView.py:17 *)
    ("MVLevel", (["__init__"; "loss"], [])); (* level/multi_view/MVLevel.py:10 *)
    ("MVKPCA", (["__init__"; "__str__"; "_update_dual_from_primal"], [])) ].  (* level/multi_view/MVKPCA.py:9 *)
Definition body (c : string) : list string * list string := match dget bodies c with Some b => b | None => ([], []) end.
Definition kdefs (c : string) : list string := fst (body c) ++ snd (body c).
Definition kabs (c : string) : list string := snd (body c).

(** The class statements of kerch ([statements] of Classes.v), in order. *)
Definition ktable := dict klass.
Fixpoint klookup_all (t : ktable) (ns : list string) : result (list klass) :=
  match ns with
  | [] => Ok []
  | n :: ns' => match dget t n with
                | None => Err ENameError
                | Some c => bind (klookup_all t ns') (fun cs => Ok (c :: cs))
                end
  end.
Fixpoint kdefine (defs abs : string -> list string) (t : ktable) (ss : list (string * list string)) : result ktable :=
  match ss with
  | [] => Ok t
  | (n, bs) :: ss' => bind (klookup_all t bs) (fun cs => bind (class_statement defs abs n cs) (fun c => kdefine defs abs (dset t n c) ss'))
  end.
Definition kkerch : ktable := Eval vm_compute in match kdefine kdefs kabs [] statements with Ok t => t | Err _ => [] end.
Definition kclass_of (n : string) : klass := match dget kkerch n with Some c => c | None => Klass [] [] end.

(** *** The classes made at run time ([new_view], [new_distance], [kernel_new] of Classes.v, with
    their abstract methods). *)
Definition knew_view (defs abs : string -> list string) (fresh : string) (level kernel : klass) : result klass :=
  if is_subclass (k_mro kernel) "Kernel" then class_statement defs abs fresh [level; kernel] else Err EAssertionError.
Inductive kdistance : Type := KName (s : string) | KClass (c : klass).
Definition kdistance_class (d : kdistance) : result klass :=
  match d with
  | KName s => if String.eqb s "euclidean" then Ok (kclass_of "Euclidean")
               else if String.eqb s "chebyshev" then Ok (kclass_of "Chebyshev")
               else if String.eqb s "manhattan" then Ok (kclass_of "Manhattan")
               else if String.eqb s "wasserstein" then Ok (kclass_of "distance.Wasserstein")
               else if String.eqb s "minkowski" then Ok (kclass_of "Minkowski")
               else Err EValueError
  | KClass c => if is_subclass (k_mro c) "_Distance" then Ok c else Err EValueError
  end.
Definition kkernel_new (defs abs : string -> list string) (fresh : string) (found_in c : klass) (d : option kdistance) : result klass :=
  if is_subclass (k_mro found_in) "SelectDistance"
  then let d' := if is_subclass (k_mro found_in) "RBF" || is_subclass (k_mro found_in) "Laplacian" then None else d in
       bind (kdistance_class (match d' with Some d => d | None => KName "euclidean" end)) (fun dc => class_statement defs abs fresh [c; dc])
  else Ok c.
(** [kernel(distance=...)] and [level(kernel_class=..., distance=...)] up to [__init__]: the class
    of the object. *)
Definition create_kernel (defs abs : string -> list string) (fresh : string) (kernel : klass) (d : option kdistance) : result cls :=
  bind (kkernel_new defs abs fresh kernel kernel d) instantiate.
Definition create_level (defs abs : string -> list string) (fresh1 fresh2 : string) (level kernel : klass) (d : option kdistance) : result cls :=
  bind (knew_view defs abs fresh1 level kernel) (fun c => bind (kkernel_new defs abs fresh2 kernel c d) instantiate).
(** A class without a [__new__] of its own ([MultiView], [MVKPCA]): that of [Module]. *)
Definition create_plain (c : klass) : result cls := instantiate c.
