(** Creating objects by name ([kerch/kernel/_factory.py], [level/factory.py],
    [model/factory.py], [data/factory.py], [monitor/factory.py]) and choosing a
    representation ([kernel/kernel.py: forward]).  Definitions only.

    Strings are byte strings and lower-casing is that of the ASCII letters; Python also
    maps other characters, such as the Kelvin sign, to ASCII letters. *)
From Coq Require Import Ascii.
From Verif Require Import Base.
Open Scope string_scope.

(** [str.lower] *)
Definition lower_char (c : ascii) : ascii :=
  let n := nat_of_ascii c in
  if (Nat.leb 65 n && Nat.leb n 90)%bool then ascii_of_nat (n + 32) else c.
Fixpoint lower (s : string) : string :=
  match s with EmptyString => EmptyString | String c s' => String (lower_char c) (lower s') end.
(** [str.replace(c, "")] *)
Fixpoint remove_char (c : ascii) (s : string) : string :=
  match s with
  | EmptyString => EmptyString
  | String d s' => if Ascii.eqb d c then remove_char c s' else String d (remove_char c s')
  end.

(** [case_insensitive_getattr] (_factory.py:28-32, and the same in the other
    factories): the first name in [dir] that agrees. *)
Definition getattr_ci (dir : list string) (attr : string) : option string :=
  find (fun a => String.eqb (lower a) (lower attr)) dir.

(** [dir(kerch.kernel)]: the names of the stub file (kernel/__init__.pyi:4-54) in
    ascending order; the lazy loader shows nothing else. *)
Definition kernel_dir : list string :=
  ["AdditiveChi2"; "Cosine"; "Distance"; "DistanceSquared"; "Epanechnikov"; "Explicit"; "ExplicitNN"; "Exponential";
   "Hat"; "Implicit"; "ImplicitNN"; "Indicator"; "Kernel"; "Laplacian"; "Linear"; "Logistic"; "Nystrom"; "Polynomial";
   "Quartic"; "RBF"; "RFArcsinh"; "RFF"; "RFHyperbola"; "RFLReLU"; "RFStacked"; "RandomFeatures"; "SelectDistance";
   "Sigmoid"; "Silverman"; "SkewedChi2"; "Triangular"; "Tricube"; "Triweight"; "Uniform"; "_BaseKernel"; "factory"].
Definition single_view_dir : list string := ["KPCA"; "LSSVM"; "PPCA"; "Ridge"].
Definition model_dir : list string := ["KPCA"; "LSSVM"; "Model"; "RKM"; "factory"].
Definition data_dir : list string := ["Gaussians"; "Iris"; "PimaIndians"; "Spiral"; "TwoMoons"; "factory"].

(** [class_factory] of the kernels (_factory.py:27-38): the name found, a class or the
    factory function itself. *)
Definition kernel_lookup (s : string) : result string :=
  match getattr_ci kernel_dir (remove_char "_" s) with Some a => Ok a | None => Err ENameError end.
(** [factory] (6-24): what is called with the keywords.  The name of the factory calls
    it again without a type, for which the default is taken (utils/defaults.py:2). *)
Definition default_kernel : string := "rbf".
Definition kernel_factory (s : string) : result string :=
  bind (kernel_lookup s) (fun a => if String.eqb a "factory" then kernel_lookup default_kernel else Ok a).

(** Levels (level/factory.py:22-34). *)
Definition level_factory (s : string) : result string :=
  if existsb (String.eqb (lower s)) ["kpca"; "lssvm"; "ridge"]
  then match getattr_ci single_view_dir s with Some a => Ok a | None => Err ENameError end
  else Err ENameError.
(** Models (model/factory.py:20-34). *)
Definition model_lookup (s : string) : result string :=
  match getattr_ci model_dir s with Some a => Ok a | None => Err ENameError end.
Definition model_factory (s : string) : result string :=
  bind (model_lookup s) (fun a => if String.eqb a "factory" then model_lookup "rkm" else Ok a).
(** Datasets (data/factory.py:3-24). *)
Definition data_lookup (s : string) : result string :=
  let s := remove_char " " (remove_char "_" s) in
  let s := if String.eqb (lower s) "pima" then "pimaindians" else s in
  match getattr_ci data_dir s with Some a => Ok a | None => Err ENameError end.
Definition data_factory (s : string) : result string :=
  bind (data_lookup s) (fun a => if String.eqb a "factory" then data_lookup "gaussians" else Ok a).
(** Watchers (monitor/factory.py:7-33): [None] is called for the name none, otherwise
    the attribute [kerch.watch] does not exist. *)
Definition watcher_factory (s : string) : result string :=
  if String.eqb s "none" then Err ETypeError else Err EAttributeError.

(** The name check of the Nystrom constructor (nystrom.py:43-45) followed by the creation
    of its base kernel (53-56). *)
Definition nystrom_base (s : string) : result string :=
  if String.eqb (lower s) "nystrom" then Err EAssertionError else kernel_factory s.

(** [Kernel.forward] (kernel.py:284-310): the class of the error is called with the data
    and the exception object is returned. *)
Inductive returned (V : Type) : Type := Data (v : V) | ErrorObject.
Arguments Data {V} v.
Arguments ErrorObject {V}.
Definition forward {X V : Type} (phi k : X -> result V) (x : X) (representation : string) : result (returned V) :=
  if String.eqb representation "primal" then bind (phi x) (fun v => Ok (Data v))
  else if String.eqb representation "dual" then bind (k x) (fun v => Ok (Data v))
  else Ok ErrorObject.
