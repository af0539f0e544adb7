(** A step of the optimiser over all the groups of parameters
    ([kerch/opt/Optimizer.py], [kerch/opt/stiefel/stiefel_optimizer.py]).  Definitions only.

    The values of the parameters are elements of a vector space, with the shape of the tensor
    aside; the update on the Stiefel manifold itself is a function [stf] ([Stiefel.v] has the
    ones of the code).  Exact arithmetic; devices are not modelled. *)
From Verif Require Import Base Cast.
From mathcomp Require Import all_ssreflect all_algebra.
Set Implicit Arguments. Unset Strict Implicit. Unset Printing Implicit Defensive.
Import GRing.Theory Num.Theory.
Local Open Scope ring_scope.

Section OptStep.
  Variables (R : realFieldType) (V : lmodType R).

  (** A parameter: its shape, its values, its gradient ([None] before any backward pass) and what
      the optimiser stores for it. *)
  Record param := Param { p_shape : seq nat; p_value : V; p_grad : option V; p_buffer : option V }.
  Record group := Group { g_lr : R; g_momentum : R; g_decay : R; g_dampening : R; g_nesterov : bool;
                          g_stiefel : bool; g_params : seq param }.
  Variable stf : group -> param -> param.

  (** [p.data.view(p.size()[0], -1)] (stiefel_optimizer.py:87, 215): the numbers of rows and columns. *)
  Definition view (shape : seq nat) : result (nat * nat) :=
    match shape with
    | [::] => Err EIndexError
    | 0%N :: _ => Err ERuntimeError
    | r :: s => Ok (r, foldr muln 1%N s)
    end.

  (** The update of the other parameters (126-142, 270-285).  [loc] has the local variables
      [dampening] and [nesterov], if they have a value.  The gradient is changed in place
      (128, 272), and so is the buffer (135, 279), before the other argument is evaluated. *)
  Definition plain (loc : option (R * bool)) (g : group) (p : param) (grad : V) : result unit * param :=
    let d := if g_decay g != 0 then grad + g_decay g *: p_value p else grad in
    let moved d' b := (Ok tt, Param (p_shape p) (p_value p - g_lr g *: d') (Some d) b) in
    if g_momentum g == 0 then moved d (p_buffer p)
    else match p_buffer p, loc with
         | Some b, None => (Err ENameError, Param (p_shape p) (p_value p) (Some d) (Some (g_momentum g *: b)))
         | None, None => (Err ENameError, Param (p_shape p) (p_value p) (Some d) (Some d))
         | ob, Some (dampening, nesterov) =>
             let b := if ob is Some b then g_momentum g *: b + (1 - dampening) *: d else d in
             moved (if nesterov then d + g_momentum g *: b else b) (Some b)
         end.

  (** One parameter in [SGDG.step] (83-142); the locals are set only by the other branch (91-92). *)
  Definition sgd_param (loc : option (R * bool)) (g : group) (p : param) : result unit * option (R * bool) * param :=
    match p_grad p with
    | None => (Ok tt, loc, p)
    | Some grad =>
        match view (p_shape p) with
        | Err e => (Err e, loc, p)
        | Ok (r, c) =>
            if g_stiefel g && (r <= c)%N then (Ok tt, Some (g_dampening g, g_nesterov g), stf g p)
            else let: (res, p') := plain loc g p grad in (res, loc, p')
        end
    end.
  (** One parameter in [AdamG.step] (207-285); the locals are read from the group (266-269). *)
  Definition adam_param (loc : option (R * bool)) (g : group) (p : param) : result unit * option (R * bool) * param :=
    match p_grad p with
    | None => (Ok tt, loc, p)
    | Some grad =>
        match view (p_shape p) with
        | Err e => (Err e, loc, p)
        | Ok (r, c) =>
            if g_stiefel g && (r <= c)%N then (Ok tt, loc, stf g p)
            else let: (res, p') := plain (Some (g_dampening g, g_nesterov g)) g p grad in
                 (res, Some (g_dampening g, g_nesterov g), p')
        end
    end.

  (** The loops over the parameters and the groups (78-83, 204-207): an exception ends both. *)
  Section Loops.
    Variable one : option (R * bool) -> group -> param -> result unit * option (R * bool) * param.
    Fixpoint over_params (loc : option (R * bool)) (g : group) (ps : seq param)
      : result unit * option (R * bool) * seq param :=
      match ps with
      | [::] => (Ok tt, loc, [::])
      | p :: ps' =>
          let: (res, loc', p') := one loc g p in
          match res with
          | Err e => (Err e, loc', p' :: ps')
          | Ok _ => let: (res', loc'', ps'') := over_params loc' g ps' in (res', loc'', p' :: ps'')
          end
      end.
    Definition with_params (g : group) (ps : seq param) : group :=
      Group (g_lr g) (g_momentum g) (g_decay g) (g_dampening g) (g_nesterov g) (g_stiefel g) ps.
    Fixpoint over_groups (loc : option (R * bool)) (gs : seq group) : result unit * seq group :=
      match gs with
      | [::] => (Ok tt, [::])
      | g :: gs' =>
          let: (res, loc', ps) := over_params loc g (g_params g) in
          match res with
          | Err e => (Err e, with_params g ps :: gs')
          | Ok _ => let: (res', gs'') := over_groups loc' gs' in (res', with_params g ps :: gs'')
          end
      end.
  End Loops.
  Definition sgd_step (gs : seq group) : result unit * seq group := over_groups sgd_param None gs.
  Definition adam_step (gs : seq group) : result unit * seq group := over_groups adam_param None gs.

  (** [Optimizer.reduce] (Optimizer.py:81-84). *)
  Definition reduce (rate : R) (gs : seq group) : seq group :=
    [seq Group (g_lr g * rate) (g_momentum g) (g_decay g) (g_dampening g) (g_nesterov g) (g_stiefel g) (g_params g) | g <- gs].
End OptStep.

(** The choice of the optimiser by its name (Optimizer.py:60-63): a name that is not known gives a
    string, which is called. *)
Inductive algorithm := SGD | Adam.
Definition choose (type : string) (groups : nat) : result (option algorithm) :=
  if (groups == 0)%N then Ok None
  else if String.eqb type "sgd" then Ok (Some SGD)
  else if String.eqb type "adam" then Ok (Some Adam)
  else Err ETypeError.
(** [Optimizer.step] (86-89): the closure is evaluated first (stiefel_optimizer.py:74-76); the
    value is [None] without a closure. *)
Definition step_value (A : Type) (opt : option algorithm) (closure : option A) : result (option A) :=
  match opt, closure with
  | Some _, c => Ok c
  | None, Some v => Ok (Some v)
  | None, None => Err ETypeError
  end.

(** The hyperparameters of the kernels and levels that can be trained, and the shape of their
    tensors once constructed (polynomial.py:86-89, sigmoid.py:45-48, skewed_chi_2.py:38-40,
    indicator.py:67-78, hat.py:48-49, _distance.py:33, random_features.py:67-68, LSSVM.py:25). *)
Inductive hyper := PolynomialAlpha | PolynomialBeta | SigmoidA | SigmoidB | SkewedP | IndicatorLag | IndicatorGamma
  | HatLag | Bandwidth | FeaturesSigma | LssvmGamma.
Definition initial_shape (h : hyper) : seq nat :=
  match h with SigmoidA | SigmoidB | Bandwidth => [:: 1%N] | _ => [::] end.
(** The shape after a number is assigned to the bandwidth (_distance.py:57-62), also by the
    constructor (34-35) and by the heuristic when it was not given
    (distance_squared.py:19-25), which gives a tensor with no dimension too. *)
Definition assigned_shape : result (option (seq nat)) :=
  match castf (Some (Array [::] [:: tt])) false with
  | Ok (Some a) => Ok (Some (a_shape a))
  | Ok None => Ok None
  | Err e => Err e
  end.
