(** What is reported, independently of how it is computed. *)
From Verif Require Import Base Classes ClassesSpec Hparams.
Open Scope nat_scope.
Open Scope string_scope.
Open Scope list_scope.

(** The entries that are met, class after class, and how it ends. *)
Inductive ending : Type := End_ok | End_method | End_error (e : exn).
Fixpoint chain (tbl : which -> string -> option listing) (skip : option string) (l : list string) (w : which) : list (string * source) * ending :=
  match l with
  | [] => ([], End_error EAttributeError)
  | c :: l' =>
      match skip with
      | Some s => if String.eqb c s then chain tbl None l' w else chain tbl skip l' w
      | None =>
          match tbl w c with
          | None => chain tbl None l' w
          | Some (Listing false _ _) => ([], End_method)
          | Some (Listing true own None) => (own, End_ok)
          | Some (Listing true own (Some (s, w'))) =>
              let '(es, e) := chain tbl (if String.eqb c s then None else Some s) l' w' in
              (own ++ es, match e with End_method => End_error ETypeError | _ => e end)
          end
      end
  end.
(** The last entry for a key. *)
Definition last_source (es : list (string * source)) (k : string) : option source :=
  fold_left (fun r e => if String.eqb (fst e) k then Some (snd e) else r) es None.
Definition readable {V} (read : string -> result V) (es : list (string * source)) : Prop :=
  forall k a, In (k, Attr a) es -> is_ok (read a) = true.

(** Classes that say nothing about hyperparameters do not count. *)
Definition relevant (c : string) : bool :=
  smem c (map fst fixed_table) || smem c (map fst variable_table) || String.eqb c "RandomFeatures".
(** The classes that count in the kernels [n] of kerch, and in the levels on these: [Level] and
    below, or only [View] when [lv] is false. *)
Definition counted (n : string) : list string := filter relevant (cls_of n).
Definition counted_level (lv : bool) (n : string) : list string :=
  (if lv then ["_Level"] else []) ++ filter relevant (firstn (List.length (cls_of n) - 9) (cls_of n)) ++ filter relevant below_view.

(** Names of the kernels, as they are written in their classes. *)
Definition kernel_names : list (string * string) :=
  [("Exponential", "Exponential"); ("Uniform", "Uniform"); ("Triangular", "Triangular"); ("Epanechnikov", "Epanechnikov");
   ("Quartic", "Quartic"); ("Triweight", "Triweight"); ("Tricube", "Tricube"); ("Logistic", "Logistic"); ("Silverman", "Silverman");
   ("Polynomial", "Polynomial"); ("Sigmoid", "Sigmoid"); ("ImplicitNN", "Implicit NN"); ("SkewedChi2", "Skewed Chi Squred");
   ("AdditiveChi2", "Additive Chi Squared"); ("Indicator", "Indicator"); ("Hat", "Hat"); ("RFF", "Random Fourier Features");
   ("RFArcsinh", "Random Features Arcsinh"); ("RFLReLU", "Random Leaky ReLU Features"); ("RFHyperbola", "Random Features Hyperbola");
   ("RFStacked", "Random Features Stacked")].
(** The fixed values that every level has. *)
Definition level_keys : list string :=
  ["Level type"; "Level eta"; "Output dimension"; "Representation"; "Parameters trainable"; "Constraint";
   "Input dimension"; "Trainable sample"; "Default sample transforms"; "Default kernel transforms"].
(** The hyperparameters that can be trained, by kernel: the parameters that the constructors
    create (kernel/distance/_distance.py:33, generic/polynomial.py:86-89, generic/sigmoid.py:45-48,
    vision/skewed_chi_2.py:38-39, time/indicator.py:67-79, time/hat.py:48-50,
    random_features/random_features.py:68) and, for levels, level/single_view/LSSVM.py:25. *)
Definition distance_names : list string :=
  ["Exponential"; "Uniform"; "Triangular"; "Epanechnikov"; "Quartic"; "Triweight"; "Tricube"; "Logistic"; "Silverman";
   "RBF"; "Laplacian"; "Wasserstein"].
Definition trainable (n : string) : list string :=
  if smem n distance_names then ["sigma"]
  else if String.eqb n "Polynomial" then ["alpha"; "beta"]
  else if String.eqb n "Sigmoid" then ["_a"; "_b"]
  else if String.eqb n "SkewedChi2" then ["p"]
  else if String.eqb n "Indicator" then ["lag"; "gamma"]
  else if String.eqb n "Hat" then ["lag"]
  else if smem n ["RFF"; "RFArcsinh"; "RFLReLU"; "RFHyperbola"] then ["sigma"]
  else [].
Definition all_kernels : list string :=
  distance_names ++ ["Polynomial"; "Linear"; "Cosine"; "Sigmoid"; "Nystrom"; "ExplicitNN"; "ImplicitNN"; "SkewedChi2"; "AdditiveChi2";
                     "Indicator"; "Hat"; "RFF"; "RFArcsinh"; "RFLReLU"; "RFHyperbola"; "RFStacked"].

(** The objects of the kernel class [n] of kerch, and of any class that a user derives from it
    without reporting more hyperparameters; the levels on these, with [b] when they are derived
    from [Level].  [fs]: the classes made at run time. *)
Inductive is_kernel (n : string) : list (string * string) -> list string -> Prop :=
| IsKernel : forall f k d own obj, own_classes k d own -> NoDup (f :: own ++ below_view) -> relevant f = false ->
    filter relevant (own ++ below_kernel) = counted n -> kernel_object f k d = Ok obj -> is_kernel n [(f, hd "" k)] obj.
Inductive is_level (b : bool) (n : string) : list (string * string) -> list string -> Prop :=
| IsLevel : forall f1 f2 lv k d own obj, own_classes k d own -> NoDup (f1 :: f2 :: lv ++ "View" :: own ++ below_view) ->
    relevant f1 = false -> relevant f2 = false -> filter relevant lv = (if b then ["_Level"] else []) ->
    filter relevant (own ++ below_kernel) = counted n -> level_object f1 f2 (level_class lv) k d = Ok obj ->
    is_level b n [(f1, hd "View" lv); (f2, hd "View" lv)] obj.
Definition report {V} (read : string -> result V) (fs : list (string * string)) (obj : list string) (w : which) : result (answer V) :=
  hparams (kerch_table fs) read None obj w.
