(** How the names of kerch are found: the packages load their content when it is first used, with
    [lazy_loader.attach_stub] (kerch/kernel/__init__.py:4, level/__init__.py:3,
    level/single_view/__init__.py:3, level/multi_view/__init__.py:4, model/__init__.py:3,
    train/__init__.py:4), from the list of names in their stub ([__init__.pyi]).  Definitions only.

    The environment variable [EAGER_IMPORT] of lazy_loader is taken to be unset, and imports of
    anything but the packages at hand to succeed without effect on them. *)
From Verif Require Import Base Factory.
Open Scope nat_scope.
Open Scope string_scope.
Open Scope list_scope.

(** What a name can stand for: a module, or the class or function [n] of the module [m]. *)
Inductive value : Type := VModule (m : string) | VObject (m n : string).
(** [from m import ...] of a module file, and [from p import n1, n2, ...] of a package. *)
Inductive import : Type := ImportModule (m : string) | ImportNames (p : string) (ns : list string).
(** A module: the package that it is in and its name there, the stub of a package (name, module as
    it is written in the stub, and its full name), the imports that it runs and the names that it
    has afterwards. *)
Record module : Type := Mod {
  m_parent : option (string * string);
  m_stub : option (list (string * (string * string)));
  m_imports : list import;
  m_names : list string }.
Definition table := dict module.

(** For each module, whether it is in [sys.modules], and what its package has under its name. *)
Notation state := (dict (bool * option value)).
Definition fresh (t : table) : state := map (fun x => (fst x, (false, None))) t.
Definition entry (s : state) (m : string) : bool * option value := match dget s m with Some e => e | None => (false, None) end.
Definition loaded (s : state) (m : string) : bool := fst (entry s m).
Definition bound (s : state) (m : string) : option value := snd (entry s m).
Definition set_loaded (s : state) (m : string) (b : bool) : state := dset s m (b, bound s m).
Definition set_bound (s : state) (m : string) (v : value) : state := dset s m (loaded s m, Some v).

Definition import_error : exn := EOther 3.   (* ImportError, ModuleNotFoundError *)
Definition submodule (p n : string) : string := p ++ "." ++ n.
(** The module [n] of the package [p], if there is one. *)
Definition child (t : table) (p n : string) : option string :=
  option_map fst (find (fun x => match m_parent (snd x) with Some (q, a) => String.eqb q p && String.eqb a n | None => false end) t).
Definition attribute (t : table) (s : state) (p n : string) : option value :=
  match child t p n with Some m => bound s m | None => None end.
Definition set_attribute (t : table) (s : state) (p n : string) (v : value) : state :=
  match child t p n with Some m => set_bound s m v | None => s end.

(** Python's import of a module: the package first; the module is in [sys.modules] while its body
    runs, and removed when the body fails; afterwards the package gets it as an attribute.
    [lookup] is [getattr(m, n)]: in a package, what is bound, or else lazy_loader's [__getattr__]:
    the name is taken from the module of the stub, and bound in the package when the module has
    the same name. *)
Fixpoint load (fuel : nat) (t : table) (s : state) (m : string) : result unit * state :=
  match fuel with
  | O => (Err ERuntimeError, s)
  | S f =>
      if loaded s m then (Ok tt, s) else
      match dget t m with
      | None => (Err import_error, s)
      | Some d =>
          let '(r0, s0) := match m_parent d with None => (Ok tt, s) | Some (p, _) => load f t s p end in
          match r0 with
          | Err e => (Err e, s0)
          | Ok _ =>
              let '(r, s1) := run f t (set_loaded s0 m true) (m_imports d) in
              match r with
              | Err e => (Err e, set_loaded s1 m false)
              | Ok _ => (Ok tt, match m_parent d with None => s1 | Some _ => set_bound s1 m (VModule m) end)
              end
          end
      end
  end
with run (fuel : nat) (t : table) (s : state) (is : list import) : result unit * state :=
  match fuel with
  | O => (Err ERuntimeError, s)
  | S f =>
      match is with
      | [] => (Ok tt, s)
      | ImportModule m :: is' =>
          let '(r, s1) := load f t s m in
          match r with Err e => (Err e, s1) | Ok _ => run f t s1 is' end
      | ImportNames p ns :: is' =>
          let '(r, s1) := load f t s p in
          match r with
          | Err e => (Err e, s1)
          | Ok _ =>
              let '(r, s2) := from_list f t s1 p ns in
              match r with
              | Err e => (Err e, s2)
              | Ok _ =>
                  let '(r, s3) := import_from f t s2 p ns in
                  match r with Err e => (Err e, s3) | Ok _ => run f t s3 is' end
              end
          end
      end
  end
(** [_handle_fromlist]: the names that the package does not have are imported as modules, if there
    are such modules. *)
with from_list (fuel : nat) (t : table) (s : state) (p : string) (ns : list string) : result unit * state :=
  match fuel with
  | O => (Err ERuntimeError, s)
  | S f =>
      match ns with
      | [] => (Ok tt, s)
      | n :: ns' =>
          let '(r, s1) := lookup f t s p n in
          match r with
          | Ok _ => from_list f t s1 p ns'
          | Err EAttributeError =>
              match child t p n with
              | Some m => let '(r, s2) := load f t s1 m in
                          match r with Err e => (Err e, s2) | Ok _ => from_list f t s2 p ns' end
              | None => from_list f t s1 p ns'
              end
          | Err e => (Err e, s1)
          end
      end
  end
with import_from (fuel : nat) (t : table) (s : state) (p : string) (ns : list string) : result unit * state :=
  match fuel with
  | O => (Err ERuntimeError, s)
  | S f =>
      match ns with
      | [] => (Ok tt, s)
      | n :: ns' =>
          let '(r, s1) := lookup f t s p n in
          match r with
          | Ok _ => import_from f t s1 p ns'
          | Err EAttributeError => (Err import_error, s1)
          | Err e => (Err e, s1)
          end
      end
  end
with lookup (fuel : nat) (t : table) (s : state) (m n : string) : result value * state :=
  match fuel with
  | O => (Err ERuntimeError, s)
  | S f =>
      match dget t m with
      | None => (Err EAttributeError, s)
      | Some d =>
          match m_stub d with
          | None => (if smem n (m_names d) then Ok (VObject m n) else Err EAttributeError, s)
          | Some stub =>
              match attribute t s m n with
              | Some v => (Ok v, s)
              | None =>
                  match dget stub n with
                  | None => (Err EAttributeError, s)
                  | Some (rel, full) =>
                      let '(r, s1) := load f t s full in
                      match r with
                      | Err e => (Err e, s1)
                      | Ok _ =>
                          let '(r, s2) := lookup f t s1 full n in
                          match r with
                          | Err e => (Err e, s2)
                          | Ok v => (Ok v, if String.eqb rel n then set_attribute t s2 m n v else s2)
                          end
                      end
                  end
              end
          end
      end
  end.

(** Calling what was found: a module cannot be called. *)
Definition call (v : value) : result string := match v with VModule _ => Err ETypeError | VObject _ n => Ok n end.

(** *** The levels *)
Definition plain (p n : string) (is : list import) (names : list string) : module := Mod (Some (p, n)) None is names.
Definition stub_names (p : string) (l : list (string * string)) : list (string * (string * string)) :=
  map (fun x => (fst x, (snd x, submodule p (snd x)))) l.
Definition level_table : table :=
  [ ("level", Mod None (Some (stub_names "level"                                         (* level/__init__.pyi:2-8 *)
       [("KPCA", "single_view"); ("LSSVM", "single_view"); ("PPCA", "single_view"); ("Ridge", "single_view"); ("Level", "single_view");
        ("MVKPCA", "multi_view"); ("factory", "factory")])) [] []);
    ("level.single_view", Mod (Some ("level", "single_view")) (Some (stub_names "level.single_view"   (* single_view/__init__.pyi:2-5 *)
       [("KPCA", "KPCA"); ("Ridge", "Ridge"); ("LSSVM", "LSSVM"); ("PPCA", "PPCA")])) [] []);
    ("level.multi_view", Mod (Some ("level", "multi_view")) (Some (stub_names "level.multi_view" [("MVKPCA", "MVKPCA")])) [] []);  (* multi_view/__init__.pyi:1 *)
    ("level._View", plain "level" "_View" [] ["_View"]);
    ("level._Level", plain "level" "_Level" [ImportModule "level._View"] ["_Level"; "_View"]);           (* _Level.py:6 *)
    ("level._KPCA", plain "level" "_KPCA" [ImportModule "level._Level"] ["_KPCA"; "_Level"]);            (* _KPCA.py:9 *)
    ("level._PPCA", plain "level" "_PPCA" [ImportModule "level._Level"] ["_PPCA"; "_Level"]);            (* _PPCA.py:9 *)
    ("level.single_view.View", plain "level.single_view" "View" [ImportModule "level._View"] ["View"; "_View"]);   (* View.py:14 *)
    ("level.single_view.Level", plain "level.single_view" "Level" [ImportModule "level._Level"; ImportModule "level.single_view.View"] ["Level"; "_Level"; "View"]);  (* Level.py:4-5 *)
    ("level.single_view.KPCA", plain "level.single_view" "KPCA" [ImportModule "level.single_view.Level"; ImportModule "level._KPCA"] ["KPCA"; "Level"; "_KPCA"]);     (* KPCA.py:5-6 *)
    ("level.single_view.PPCA", plain "level.single_view" "PPCA" [ImportModule "level._PPCA"; ImportModule "level.single_view.Level"] ["PPCA"; "Level"; "_PPCA"]);     (* PPCA.py:6-7 *)
    ("level.single_view.LSSVM", plain "level.single_view" "LSSVM" [ImportModule "level.single_view.Level"] ["LSSVM"; "Level"]);    (* LSSVM.py:6 *)
    ("level.single_view.Ridge", plain "level.single_view" "Ridge" [ImportModule "level.single_view.LSSVM"] ["Ridge"; "LSSVM"]);    (* Ridge.py:1 *)
    ("level.multi_view.MultiView", plain "level.multi_view" "MultiView" [ImportModule "level._View"; ImportModule "level.single_view.View"] ["MultiView"; "_View"; "View"]);  (* MultiView.py:11-12 *)
    ("level.multi_view.MVLevel", plain "level.multi_view" "MVLevel" [ImportModule "level._Level"; ImportModule "level.multi_view.MultiView"] ["MVLevel"; "_Level"; "MultiView"]);  (* MVLevel.py:5-6 *)
    ("level.multi_view.MVKPCA", plain "level.multi_view" "MVKPCA" [ImportModule "level.multi_view.MVLevel"; ImportModule "level._KPCA"] ["MVKPCA"; "MVLevel"; "_KPCA"]);        (* MVKPCA.py:4-5 *)
    ("level.factory", plain "level" "factory" [ImportModule "level.single_view.Level"] ["factory"; "Level"]) ].                    (* level/factory.py:2 *)

(** What a user does with [kerch.level]: the use of a name, a call of the factory (level/factory.py:22-38:
    the type is looked for in [dir(kerch.level.single_view)], the sorted names of the stub, whatever
    its case), or the import of the models, which is [from ..level import Level, factory]
    (kerch/model/Model.py:8). *)
Inductive level_use : Type := Use (n : string) | Create (ty : string) | ImportModels.
Definition fuel : nat := 60.
Definition level_step (s : state) (u : level_use) : result value * state :=
  match u with
  | Use n => lookup fuel level_table s "level" n
  | Create ty =>
      let '(r, s1) := lookup fuel level_table s "level" "factory" in
      match r with
      | Err e => (Err e, s1)
      | Ok _ =>
          match level_factory ty with
          | Err e => (Err e, s1)
          | Ok a =>
              let '(r, s2) := load fuel level_table s1 "level.single_view" in
              match r with
              | Err e => (Err e, s2)
              | Ok _ => let '(r, s3) := lookup fuel level_table s2 "level.single_view" a in
                        (bind r (fun v => bind (call v) (fun _ => Ok v)), s3)
              end
          end
      end
  | ImportModels => let '(r, s1) := run fuel level_table s [ImportNames "level" ["Level"; "factory"]] in
                    (bind r (fun _ => Ok (VModule "model.Model")), s1)
  end.
Fixpoint level_run (s : state) (us : list level_use) : state :=
  match us with [] => s | u :: us' => level_run (snd (level_step s u)) us' end.
(** After [import kerch], which imports the package only (kerch/__init__.py:23). *)
Definition level_start : state := Eval vm_compute in snd (load fuel level_table (fresh level_table) "level").

(** *** The models (the import of the levels in Model.py:8 has no effect here). *)
Definition model_table : table :=
  [ ("model", Mod None (Some (stub_names "model"                                          (* model/__init__.pyi:2-6 *)
       [("RKM", "RKM"); ("LSSVM", "LSSVM"); ("KPCA", "KPCA"); ("Model", "Model"); ("factory", "factory")])) [] []);
    ("train", Mod None (Some (stub_names "train" [("Trainer", "Trainer"); ("Hyper", "Hyper")])) [] []);   (* train/__init__.pyi:2-3 *)
    ("opt", Mod None (Some (stub_names "opt" [("Optimizer", "Optimizer")])) [] []);       (* opt/__init__.pyi:1 *)
    ("model.Model", plain "model" "Model" [] ["Model"; "Level"; "factory"]);
    ("model.RKM", plain "model" "RKM" [ImportModule "model.Model"] ["RKM"; "Model"]);        (* RKM.py:5 *)
    ("model.LSSVM", plain "model" "LSSVM" [ImportModule "model.Model"] ["LSSVM"; "Model"]);  (* LSSVM.py:1 *)
    ("model.KPCA", plain "model" "KPCA" [ImportModule "model.Model"] ["KPCA"; "Model"]);     (* KPCA.py:1 *)
    ("model.factory", plain "model" "factory" [ImportModule "model.Model"] ["factory"; "class_factory"; "Model"]);   (* model/factory.py:2 *)
    ("opt.Optimizer", plain "opt" "Optimizer" [ImportModule "feature.feature"] ["Optimizer"]);    (* opt/Optimizer.py:15; there is no kerch/feature/feature.py *)
    ("train.Trainer", plain "train" "Trainer" [ImportModule "model.Model"; ImportNames "opt" ["Optimizer"]] ["Trainer"; "Model"; "Optimizer"]);  (* Trainer.py:8,11 *)
    ("train.Hyper", plain "train" "Hyper" [] ["Hyper"]) ].
Inductive model_use : Type := UseModel (n : string) | UseTrain (n : string) | CreateModel (ty : string).
Definition model_step (s : state) (u : model_use) : result value * state :=
  match u with
  | UseModel n => lookup fuel model_table s "model" n
  | UseTrain n => lookup fuel model_table s "train" n
  | CreateModel ty =>                                                                        (* model/factory.py:20-35; the type "factory" is the factory again, and so "rkm" *)
      let '(r, s1) := lookup fuel model_table s "model" "factory" in
      match r with
      | Err e => (Err e, s1)
      | Ok _ => match model_factory ty with
                | Err e => (Err e, s1)
                | Ok a => let '(r, s2) := lookup fuel model_table s1 "model" a in
                          (bind r (fun v => bind (call v) (fun _ => Ok v)), s2)
                end
      end
  end.
Fixpoint model_run (s : state) (us : list model_use) : state :=
  match us with [] => s | u :: us' => model_run (snd (model_step s u)) us' end.
Definition model_start : state := Eval vm_compute in
  snd (load fuel model_table (snd (load fuel model_table (snd (load fuel model_table (fresh model_table) "model")) "train")) "opt").

(** *** The kernels.  The directories are packages without [__init__]; the modules that are
    imported while a kernel is made ([select_distance.py:18-33]) are listed too. *)
Definition kernel_table : table :=
  [ ("kernel", Mod None (Some (stub_names "kernel"                                      (* kernel/__init__.pyi:4-55 *)
       [("_BaseKernel", "_base_kernel"); ("Kernel", "kernel"); ("Implicit", "implicit"); ("Explicit", "explicit");
        ("Distance", "distance.distance"); ("DistanceSquared", "distance.distance_squared");
        ("SelectDistance", "distance.select_distance"); ("Linear", "generic.linear"); ("RBF", "generic.rbf");
        ("Laplacian", "generic.laplacian"); ("Cosine", "generic.cosine"); ("Sigmoid", "generic.sigmoid");
        ("Polynomial", "generic.polynomial"); ("RandomFeatures", "random_features.random_features");
        ("RFF", "random_features.rff"); ("RFLReLU", "random_features.rf_lrelu");
        ("RFArcsinh", "random_features.rf_arcsinh"); ("RFHyperbola", "random_features.rf_hyperbola");
        ("RFStacked", "random_features.rf_stacked"); ("ExplicitNN", "network.explicit_nn");
        ("ImplicitNN", "network.implicit_nn"); ("Indicator", "time.indicator"); ("Hat", "time.hat");
        ("AdditiveChi2", "vision.additive_chi_2"); ("SkewedChi2", "vision.skewed_chi_2");
        ("Epanechnikov", "statistics.epanechnikov"); ("Uniform", "statistics.uniform");
        ("Triangular", "statistics.triangular"); ("Quartic", "statistics.quartic");
        ("Triweight", "statistics.triweight"); ("Tricube", "statistics.tricube"); ("Logistic", "statistics.logistic");
        ("Silverman", "statistics.silverman"); ("Exponential", "statistics.exponential"); ("Nystrom", "nystrom");
        ("factory", "_factory")])) [] []);
    ("kernel.distance", plain "kernel" "distance" [] []);
    ("kernel.generic", plain "kernel" "generic" [] []);
    ("kernel.random_features", plain "kernel" "random_features" [] []);
    ("kernel.network", plain "kernel" "network" [] []);
    ("kernel.time", plain "kernel" "time" [] []);
    ("kernel.vision", plain "kernel" "vision" [] []);
    ("kernel.statistics", plain "kernel" "statistics" [] []);
    ("kernel._base_kernel", plain "kernel" "_base_kernel" [] ["_BaseKernel"]);  (* _base_kernel.py *)
    ("kernel.kernel", plain "kernel" "kernel" [ImportModule "kernel._base_kernel"] ["_BaseKernel"; "Kernel"]);  (* kernel.py:18 *)
    ("kernel.implicit", plain "kernel" "implicit" [ImportModule "kernel.kernel"] ["Kernel"; "Implicit"]);  (* implicit.py:13 *)
    ("kernel.explicit", plain "kernel" "explicit" [ImportModule "kernel.kernel"] ["Kernel"; "Explicit"]);  (* explicit.py:13 *)
    ("kernel.distance._distance", plain "kernel.distance" "_distance" [ImportModule "kernel.implicit"] ["Implicit"; "_Distance"]);  (* distance/_distance.py:7 *)
    ("kernel.distance.distance", plain "kernel.distance" "distance" [ImportModule "kernel.distance._distance"] ["_Distance"; "Distance"]);  (* distance/distance.py:6 *)
    ("kernel.distance.distance_squared", plain "kernel.distance" "distance_squared" [ImportModule "kernel.distance._distance"] ["_Distance"; "DistanceSquared"]);  (* distance/distance_squared.py:6 *)
    ("kernel.distance.select_distance", plain "kernel.distance" "select_distance" [ImportModule "kernel.distance._distance"] ["_Distance"; "SelectDistance"]);  (* distance/select_distance.py:2 *)
    ("kernel.generic.linear", plain "kernel.generic" "linear" [ImportModule "kernel.explicit"] ["Explicit"; "Linear"]);  (* generic/linear.py:14 *)
    ("kernel.statistics.exponential", plain "kernel.statistics" "exponential" [ImportModule "kernel.distance.select_distance"] ["SelectDistance"; "Exponential"]);  (* statistics/exponential.py:14 *)
    ("kernel.distance.euclidean", plain "kernel.distance" "euclidean" [ImportModule "kernel.distance.distance_squared"] ["DistanceSquared"; "Euclidean"]);  (* distance/euclidean.py:5 *)
    ("kernel.generic.rbf", plain "kernel.generic" "rbf" [ImportModule "kernel.statistics.exponential"; ImportModule "kernel.distance.euclidean"] ["Exponential"; "Euclidean"; "RBF"]);  (* generic/rbf.py:12,13 *)
    ("kernel.generic.laplacian", plain "kernel.generic" "laplacian" [ImportModule "kernel.statistics.exponential"; ImportModule "kernel.distance.euclidean"] ["Exponential"; "Euclidean"; "Laplacian"]);  (* generic/laplacian.py:12,14 *)
    ("kernel.generic.cosine", plain "kernel.generic" "cosine" [ImportModule "kernel.generic.linear"] ["Linear"; "Explicit"; "Cosine"]);  (* generic/cosine.py:12 *)
    ("kernel.generic.sigmoid", plain "kernel.generic" "sigmoid" [ImportModule "kernel.implicit"] ["Implicit"; "Kernel"; "Sigmoid"]);  (* generic/sigmoid.py:12 *)
    ("kernel.generic.polynomial", plain "kernel.generic" "polynomial" [ImportModule "kernel.kernel"; ImportModule "kernel.explicit"; ImportModule "kernel.implicit"] ["Kernel"; "Explicit"; "Implicit"; "Polynomial"]);  (* generic/polynomial.py:17,18,19 *)
    ("kernel.random_features.random_features", plain "kernel.random_features" "random_features" [ImportModule "kernel.kernel"] ["Kernel"; "RandomFeatures"]);  (* random_features/random_features.py:18 *)
    ("kernel.random_features.rff", plain "kernel.random_features" "rff" [ImportModule "kernel.random_features.random_features"; ImportModule "kernel.generic.rbf"] ["RandomFeatures"; "RBF"; "RFF"]);  (* random_features/rff.py:16,17 *)
    ("kernel.random_features.rf_lrelu", plain "kernel.random_features" "rf_lrelu" [ImportModule "kernel.random_features.random_features"] ["RandomFeatures"; "RFLReLU"]);  (* random_features/rf_lrelu.py:6 *)
    ("kernel.random_features.rf_arcsinh", plain "kernel.random_features" "rf_arcsinh" [ImportModule "kernel.random_features.random_features"] ["RandomFeatures"; "RFArcsinh"]);  (* random_features/rf_arcsinh.py:4 *)
    ("kernel.random_features.rf_hyperbola", plain "kernel.random_features" "rf_hyperbola" [ImportModule "kernel.random_features.random_features"] ["RandomFeatures"; "RFHyperbola"]);  (* random_features/rf_hyperbola.py:4 *)
    ("kernel._factory", plain "kernel" "_factory" [ImportModule "kernel.kernel"] ["Kernel"; "factory"; "class_factory"]);  (* _factory.py:2 *)
    ("kernel.random_features.rf_stacked", plain "kernel.random_features" "rf_stacked" [ImportModule "kernel.explicit"; ImportModule "kernel.random_features.random_features"; ImportModule "kernel._factory"] ["Explicit"; "RandomFeatures"; "factory"; "RFStacked"]);  (* random_features/rf_stacked.py:3,4,5 *)
    ("kernel.network.explicit_nn", plain "kernel.network" "explicit_nn" [ImportModule "kernel.explicit"] ["Explicit"; "Kernel"; "ExplicitNN"]);  (* network/explicit_nn.py:13 *)
    ("kernel.network.implicit_nn", plain "kernel.network" "implicit_nn" [ImportModule "kernel.implicit"] ["Implicit"; "Kernel"; "ImplicitNN"]);  (* network/implicit_nn.py:12 *)
    ("kernel.time.indicator", plain "kernel.time" "indicator" [ImportModule "kernel.implicit"] ["Implicit"; "Kernel"; "Indicator"]);  (* time/indicator.py:12 *)
    ("kernel.time.hat", plain "kernel.time" "hat" [ImportModule "kernel.implicit"] ["Implicit"; "Kernel"; "Hat"]);  (* time/hat.py:12 *)
    ("kernel.vision.additive_chi_2", plain "kernel.vision" "additive_chi_2" [ImportModule "kernel.implicit"] ["Implicit"; "Kernel"; "AdditiveChi2"]);  (* vision/additive_chi_2.py:14 *)
    ("kernel.vision.skewed_chi_2", plain "kernel.vision" "skewed_chi_2" [ImportModule "kernel.implicit"] ["Implicit"; "Kernel"; "SkewedChi2"]);  (* vision/skewed_chi_2.py:14 *)
    ("kernel.statistics.epanechnikov", plain "kernel.statistics" "epanechnikov" [ImportModule "kernel.distance.select_distance"] ["SelectDistance"; "Epanechnikov"]);  (* statistics/epanechnikov.py:4 *)
    ("kernel.statistics.uniform", plain "kernel.statistics" "uniform" [ImportModule "kernel.distance.select_distance"] ["SelectDistance"; "Uniform"]);  (* statistics/uniform.py:4 *)
    ("kernel.statistics.triangular", plain "kernel.statistics" "triangular" [ImportModule "kernel.distance.select_distance"] ["SelectDistance"; "Triangular"]);  (* statistics/triangular.py:4 *)
    ("kernel.statistics.quartic", plain "kernel.statistics" "quartic" [ImportModule "kernel.distance.select_distance"] ["SelectDistance"; "Quartic"]);  (* statistics/quartic.py:4 *)
    ("kernel.statistics.triweight", plain "kernel.statistics" "triweight" [ImportModule "kernel.distance.select_distance"] ["SelectDistance"; "Triweight"]);  (* statistics/triweight.py:4 *)
    ("kernel.statistics.tricube", plain "kernel.statistics" "tricube" [ImportModule "kernel.distance.select_distance"] ["SelectDistance"; "Tricube"]);  (* statistics/tricube.py:4 *)
    ("kernel.statistics.logistic", plain "kernel.statistics" "logistic" [ImportModule "kernel.distance.select_distance"] ["SelectDistance"; "Logistic"]);  (* statistics/logistic.py:4 *)
    ("kernel.statistics.silverman", plain "kernel.statistics" "silverman" [ImportModule "kernel.distance.select_distance"] ["SelectDistance"; "Silverman"]);  (* statistics/silverman.py:4 *)
    ("kernel.nystrom", plain "kernel" "nystrom" [ImportModule "kernel.explicit"; ImportModule "kernel._base_kernel"; ImportModule "kernel._factory"] ["Explicit"; "Kernel"; "_BaseKernel"; "factory"; "Nystrom"]);  (* nystrom.py:14,15,16 *)
    ("kernel.distance.chebyshev", plain "kernel.distance" "chebyshev" [ImportModule "kernel.distance.distance"] ["Distance"; "Chebyshev"]);  (* distance/chebyshev.py:5 *)
    ("kernel.distance.manhattan", plain "kernel.distance" "manhattan" [ImportModule "kernel.distance.distance"] ["Distance"; "Manhattan"]);  (* distance/manhattan.py:5 *)
    ("kernel.distance.minkowski", plain "kernel.distance" "minkowski" [ImportModule "kernel.distance.distance"] ["Distance"; "Minkowski"]);  (* distance/minkowski.py:5 *)
    ("kernel.distance.wasserstein", plain "kernel.distance" "wasserstein" [ImportModule "kernel.distance.distance"] ["Distance"; "Wasserstein"])  (* distance/wasserstein.py:5 *) ].
(** The use of a name of [kerch.kernel], and the import of any file. *)
Inductive kernel_use : Type := UseKernel (n : string) | ImportFile (m : string).
Definition kernel_fuel : nat := 400.
Definition kernel_step (s : state) (u : kernel_use) : result value * state :=
  match u with
  | UseKernel n => lookup kernel_fuel kernel_table s "kernel" n
  | ImportFile m => let '(r, s1) := load kernel_fuel kernel_table s m in (bind r (fun _ => Ok (VModule m)), s1)
  end.
Fixpoint kernel_run (s : state) (us : list kernel_use) : state :=
  match us with [] => s | u :: us' => kernel_run (snd (kernel_step s u)) us' end.
