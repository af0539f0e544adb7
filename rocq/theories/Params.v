(** Which parameters the optimiser gets ([kerch/feature/module.py], [kerch/opt/Optimizer.py] and
    the [_..._parameters] methods of the classes).  Definitions only.

    Parameters are objects, represented by their addresses. *)
From Verif Require Import Base.
Open Scope nat_scope.
Open Scope list_scope.

Inductive manifold : Type := Euclidean | Slow | Stiefel.
Definition manifold_eqb (a b : manifold) : bool :=
  match a, b with Euclidean, Euclidean | Slow, Slow | Stiefel, Stiefel => true | _, _ => false end.

(** How a class overrides a [_..._parameters] generator: not at all, yielding its own parameters
    before or after those of [super()], calling [super()] without yielding from it, or reading an
    attribute that does not exist.  The consumers always exhaust the generators, so that an
    exception takes everything with it. *)
Inductive gen : Type := GSuper | GBefore (ps : list nat) | GAfter (ps : list nat) | GOnly (ps : list nat) | GMissing.
Definition run_gen (g : gen) (rest : result (list nat)) : result (list nat) :=
  match g with
  | GSuper => rest
  | GBefore ps => bind rest (fun r => Ok (ps ++ r))
  | GAfter ps => bind rest (fun r => Ok (r ++ ps))
  | GOnly ps => Ok ps
  | GMissing => bind rest (fun _ => Err EAttributeError)
  end.
(** [yield from] one generator after the other. *)
Fixpoint concat_gen (rs : list (result (list nat))) : result (list nat) :=
  match rs with
  | [] => Ok []
  | r :: rs' => bind r (fun a => bind (concat_gen rs') (fun b => Ok (a ++ b)))
  end.

(** A class in the method resolution order of an object, with the parameters it offers for
    training, by manifold. *)
Record layer : Type := Layer { ly_gen : manifold -> gen; ly_offers : list (manifold * nat) }.

(** A module: whether it is a kerch module, its classes in resolution order, its registered
    submodules. *)
Inductive pmod : Type := PMod (kerch : bool) (layers : list layer) (children : list pmod).
Definition is_kerch (m : pmod) : bool := match m with PMod b _ _ => b end.

(** [_euclidean_parameters], [_stiefel_parameters], [_slow_parameters] of an object: the base
    class (module.py:60-63, 78-81, 97-100) goes through the children that are kerch modules. *)
Fixpoint generated (k : manifold) (recurse : bool) (m : pmod) : result (list nat) :=
  match m with
  | PMod _ lys cs =>
      fold_right (fun ly rest => run_gen (ly_gen ly k) rest)
        (if recurse then concat_gen (map (fun c => if is_kerch c then generated k recurse c else Ok []) cs) else Ok [])
        lys
  end.
(** Those of a model (Model.py:159-169). *)
Definition model_generated (k : manifold) (recurse : bool) (levels : list pmod) : result (list nat) :=
  concat_gen (map (generated k recurse) levels).

(** [manifold_parameters] (module.py:135-139). *)
Fixpoint unseen (memo : list nat) (ps : list nat) : list nat :=
  match ps with
  | [] => []
  | p :: ps' => if existsb (Nat.eqb p) memo then unseen memo ps' else p :: unseen (p :: memo) ps'
  end.
Definition manifold_parameters (ps : list nat) : list nat := unseen [] ps.

(** The groups of the optimiser (Optimizer.py:19-25, 36-63): empty groups are left out; torch
    refuses a parameter that is in several groups. *)
Definition trainable (grad : nat -> bool) (ps : list nat) : list nat := filter grad ps.
Definition disjoint (a b : list nat) : bool := forallb (fun p => negb (existsb (Nat.eqb p) b)) a.
Definition groups (grad : nat -> bool) (ps : manifold -> result (list nat)) : result (list (manifold * list nat)) :=
  bind (ps Euclidean) (fun pe => bind (ps Stiefel) (fun pt => bind (ps Slow) (fun pl =>
  let e := trainable grad (manifold_parameters pe) in
  let t := trainable grad (manifold_parameters pt) in
  let l := trainable grad (manifold_parameters pl) in
  if disjoint e l && disjoint e t && disjoint l t
  then Ok (filter (fun kg => match snd kg with [] => false | _ => true end)
             [(Euclidean, e); (Slow, l); (Stiefel, t)])
  else Err EValueError))).

(** *** The classes *)
Definition only (k : manifold) (g : gen) (k' : manifold) : gen := if manifold_eqb k k' then g else GSuper.
(** [Sample] with a non-empty sample (sample.py:241-244). *)
Definition ly_sample (sample : nat) : layer := Layer (only Euclidean (GBefore [sample])) [(Euclidean, sample)].
(** [_Distance] (kernel/distance/_distance.py:96-98). *)
Definition ly_distance (sigma : nat) : layer := Layer (only Slow (GAfter [sigma])) [(Slow, sigma)].
(** [Polynomial] (kernel/generic/polynomial.py:223-226). *)
Definition ly_polynomial (alpha beta : nat) : layer := Layer (only Slow (GBefore [alpha; beta])) [(Slow, alpha); (Slow, beta)].
(** [SkewedChi2] (kernel/vision/skewed_chi_2.py:77-79). *)
Definition ly_skewed (p : nat) : layer := Layer (only Slow (GBefore [p])) [(Slow, p)].
(** [Indicator] (kernel/time/indicator.py:142-145). *)
Definition ly_indicator (lag gamma : nat) : layer := Layer (only Slow (GBefore [lag; gamma])) [(Slow, lag); (Slow, gamma)].
(** [Hat] (kernel/time/hat.py:102-104). *)
Definition ly_hat (lag : nat) : layer := Layer (only Slow (GBefore [lag])) [(Slow, lag)].
(** [ImplicitNN] (kernel/network/implicit_nn.py:57-59). *)
Definition ly_implicit_nn (net : list nat) : layer := Layer (only Euclidean (GBefore net)) (map (pair Euclidean) net).
(** [ExplicitNN] (kernel/network/explicit_nn.py:101-106): the generator of [super()] is created,
    but not run. *)
Definition ly_explicit_nn (network_trainable : bool) (nets : list nat) : layer :=
  Layer (only Euclidean (GOnly (if network_trainable then nets else [])))
        (if network_trainable then map (pair Euclidean) nets else []).
(** [Sigmoid] (kernel/generic/sigmoid.py:38-49), with [params_trainable], and the random features
    (kernel/random_features/random_features.py:54-68), with [weights_trainable] and
    [sigma_trainable], override no generator. *)
Definition ly_sigmoid (a b : nat) : layer := Layer (fun _ => GSuper) [(Slow, a); (Slow, b)].
Definition ly_random_features (weights sigma : nat) : layer := Layer (fun _ => GSuper) [(Euclidean, weights); (Slow, sigma)].
(** [_KPCA] (level/_KPCA.py:193-201): [param] is the parameter of the representation, if it exists. *)
Definition ly_kpca (param : option nat) : layer :=
  Layer (only Stiefel (GAfter (match param with Some p => [p] | None => [] end)))
        (match param with Some p => [(Stiefel, p)] | None => [] end).
(** [_PPCA] (level/_PPCA.py:297-304): another generator is created, and not run. *)
Definition ly_ppca (param : option nat) : layer :=
  Layer (only Stiefel (GOnly (match param with Some p => [p] | None => [] end)))
        (match param with Some p => [(Stiefel, p)] | None => [] end).
(** [LSSVM] (level/single_view/LSSVM.py:103-112), with its parameter set: in primal, the attribute
    [_weight] is read instead of [_primal_param]; it exists only after a reset (View.py:112-115)
    and is then an empty parameter.  The regularisation [_gamma] (line 25) is a parameter that
    requires a gradient, and is in no generator. *)
Definition ly_lssvm (primal : bool) (dual weights : nat) (weight_attr : option nat) (bias gamma : nat) : layer :=
  Layer (only Euclidean (if primal then match weight_attr with Some w => GAfter [w; bias] | None => GMissing end
                         else GAfter [dual; bias]))
        (if primal then [(Euclidean, weights); (Euclidean, bias); (Slow, gamma)]
         else [(Euclidean, dual); (Euclidean, bias); (Slow, gamma)]).
