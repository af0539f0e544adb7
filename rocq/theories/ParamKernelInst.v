(** Classes of kernels as instances of [ParamKernel.v]: random features
    ([kernel/random_features/random_features.py]), the polynomial kernel
    ([kernel/generic/polynomial.py]) and the kernels whose setters reset the cache
    ([kernel/time/hat.py], [kernel/time/indicator.py], [kernel/vision/skewed_chi_2.py],
    [kernel/random_features/rf_lrelu.py]).  Definitions only. *)
From Verif Require Import Base Cache CacheReader ParamKernel.
Open Scope string_scope.

(** * Random features *)
Section RandomFeatures.
  (** Weight matrices, bandwidths, inputs, matrices, pseudo-inverses. *)
  Context {W Sg X Mx Pi : Type}.
  (** [nrows]: [weights.shape[0]]; [fits]: [weights.shape[1] == dim_input];
      [act w n s x]: [activation_fn(x @ w.T / s) / sqrt(n)] (191-195);
      [mul]: [phi_x @ phi_y.T]; [inv n p s phi]: [activation_fn_inv(phi * sqrt(n)) @ p * s]
      (186-189). *)
  Variable nrows : W -> nat.
  Variable fits : W -> bool.
  Variable act : W -> nat -> Sg -> X -> Mx.
  Variable mul : Mx -> Mx -> Mx.
  Variable pinv : W -> Pi.
  Variable inv : nat -> Pi -> Sg -> Mx -> Mx.

  (** [_weights] (never empty here), [_num_weights] (unset when the weights were
      given to the constructor, 59-63; the infinite case is not modelled) and
      [_sigma]. *)
  Record rf_par : Type := RFPar { rf_w : W; rf_num : option nat; rf_sigma : Sg }.

  (** [num_weights] (108-117): the attribute does not exist until it is set. *)
  Definition rf_count (t : rf_par) : result nat :=
    match rf_num t with Some n => Ok n | None => Err EAttributeError end.

  Definition rf_value (t : rf_par) (x : X) : result Mx :=
    bind (rf_count t) (fun n => Ok (act (rf_w t) n (rf_sigma t) x)).
  Definition rf_feat (t : rf_par) (_ : option Pi) (x : X) : result Mx := rf_value t x.
  Definition rf_kfun (t : rf_par) (x y : X) : result Mx :=
    bind (rf_value t x) (fun a => bind (rf_value t y) (fun b => Ok (mul a b))).
  Definition rf_gram (m : Mx) : Mx := mul m m.

  (** The cached pseudo-inverse (187-188). *)
  Definition rf_aux (t : rf_par) : result Pi := Ok (pinv (rf_w t)).
  Definition rf_key : string := "Kernel_RF_weights_pinv".
  Definition rf_args : get_args := GetArgs (KStr "_rsf_piv") "normal" false false false false.
  Definition rf_pre (t : rf_par) (p : Pi) (m : Mx) : result Mx :=
    bind (rf_count t) (fun n => Ok (inv n p (rf_sigma t) m)).

  (** Setters: [weights] (144-159, no reset), [num_weights] with the weights [w] it
      draws (119-132), [sigma] (84-87; the spared elements are those of [Sample],
      which are not part of this machine), and one optimiser step on trainable
      weights followed by [after_step] (215-216, which passes a single name to
      [_remove_from_cache] and thus removes nothing, see C06). *)
  Inductive rf_op : Type :=
  | RFWeights (w : W) | RFNum (n : nat) (w : W) | RFSigma (s : Sg) | RFStep (w : W).
  Definition rf_assign (o : rf_op) (t : rf_par) : result unit * option bool * rf_par :=
    match o with
    | RFWeights w =>
        if fits w then (Ok tt, None, RFPar w (rf_num t) (rf_sigma t))
        else (Err EAssertionError, None, t)
    | RFNum n w => (Ok tt, None, RFPar w (Some n) (rf_sigma t))
    | RFSigma s => (Ok tt, Some false, RFPar (rf_w t) (rf_num t) s)
    | RFStep w => (Ok tt, None, RFPar w (rf_num t) (rf_sigma t))
    end.

  (** The constructor (54-68): explicit weights, or a number of weights and the
      draw. *)
  Inductive rf_arg : Type := GivenWeights (w : W) | GivenNumber (n : nat) (w : W).
  Definition rf_new (a : rf_arg) (s : Sg) : rf_par :=
    match a with
    | GivenWeights w => RFPar w None s
    | GivenNumber n w => RFPar w (Some n) s
    end.

  Definition rf_step (data : nat -> X) (sample : X) :=
    pstep (fun _ => true) false rf_feat rf_kfun rf_gram rf_aux rf_key rf_args rf_pre rf_assign data sample.
  Definition rf_run (data : nat -> X) (sample : X) :=
    prun (fun _ => true) false rf_feat rf_kfun rf_gram rf_aux rf_key rf_args rf_pre rf_assign data sample.
End RandomFeatures.
Arguments rf_par W Sg : clear implicits.
Arguments rf_op W Sg : clear implicits.
Arguments rf_arg W : clear implicits.

(** * The polynomial kernel *)
Section Polynomial.
  (** Numbers, inputs, matrices. *)
  Context {F X Mx : Type}.
  (** [natural a]: [a % 1 == 0]; [rootable b]: [math.sqrt(b)] does not raise;
      [pfeat a b x]: the feature map of degree [a] and offset [b] (182-214);
      [pker]: [(x @ y.T + b) ** a] (216-217). *)
  Variable natural : F -> bool.
  Variable rootable : F -> bool.
  Variable pfeat : F -> F -> X -> Mx.
  Variable pker : F -> F -> X -> X -> Mx.
  Variable gram : Mx -> Mx.
  (** [alpha_trainable] is fixed at construction. *)
  Variable trainable : bool.

  Record poly_par : Type := PolyPar { poly_alpha : F; poly_beta : F }.

  (** The closure kept by [_phi_fun] (182-214): degree and offset at the time it
      was made.  The degree is tested by [_explicit] first (219-221). *)
  Definition poly_aux (t : poly_par) : result (F * F) :=
    if natural (poly_alpha t) then
      if rootable (poly_beta t) then Ok (poly_alpha t, poly_beta t) else Err EValueError
    else Err EAssertionError.
  Definition poly_key : string := "_poly_explicit_fun".
  Definition poly_args : get_args := GetArgs (KStr "_poly_explicit_fun") "normal" false trainable true false.
  Definition poly_feat (t : poly_par) (a : option (F * F)) (x : X) : result Mx :=
    match a with Some (al, be) => Ok (pfeat al be x) | None => Err ETypeError end.
  Definition poly_kfun (t : poly_par) (x y : X) : result Mx :=
    Ok (pker (poly_alpha t) (poly_beta t) x y).
  (** [explicit_preimage] returns the class [NotImplementedError] (255-257); it is
      not used here. *)
  Definition poly_pre (t : poly_par) (a : F * F) (m : Mx) : result Mx := Err ENotImplemented.

  (** Assigning a tensor or a plain number to [alpha] or [beta].  The setter in
      force for [alpha] is the second one (159-163), which writes [_beta]; [.data]
      only accepts tensors.  [beta] has no setter. *)
  Inductive poly_value : Type := AsTensor (v : F) | AsNumber (v : F).
  Inductive poly_op : Type := PolyAlpha (v : poly_value) | PolyBeta (v : poly_value).
  Definition poly_assign (o : poly_op) (t : poly_par) : result unit * option bool * poly_par :=
    match o with
    | PolyAlpha (AsTensor v) => (Ok tt, Some false, PolyPar (poly_alpha t) v)
    | PolyAlpha (AsNumber _) => (Err ETypeError, Some false, t)
    | PolyBeta _ => (Err EAttributeError, None, t)
    end.

  Definition poly_step (data : nat -> X) (sample : X) :=
    pstep (fun t => natural (poly_alpha t)) true poly_feat poly_kfun gram poly_aux poly_key poly_args
          poly_pre poly_assign data sample.
  Definition poly_run (data : nat -> X) (sample : X) :=
    prun (fun t => natural (poly_alpha t)) true poly_feat poly_kfun gram poly_aux poly_key poly_args
         poly_pre poly_assign data sample.
End Polynomial.
Arguments poly_par F : clear implicits.
Arguments poly_value F : clear implicits.
Arguments poly_op F : clear implicits.

(** * Kernels whose setters reset the cache and keep no helper value *)
Section Resetting.
  (** Parameters (a lag; a lag and a diagonal value; a skew; a slope), and setters
      as functions on parameters: [hat.py:65-68], [indicator.py:97-100,122-125],
      [skewed_chi_2.py:51-54] reset the non-persisting elements and then assign;
      [rf_lrelu.py:27-30] resets everything outside [Sample]'s elements. *)
  Context {T X Mx : Type}.
  Variable explicit : T -> bool.
  Variable feat : T -> X -> result Mx.
  Variable kfun : T -> X -> X -> result Mx.
  Variable gram : Mx -> Mx.

  Inductive reset_op : Type := Setter (persisting : bool) (f : T -> T).
  Definition reset_assign (o : reset_op) (t : T) : result unit * option bool * T :=
    match o with Setter p f => (Ok tt, Some p, f t) end.

  Definition no_aux (t : T) : result Empty_set := Err ENotImplemented.
  Definition no_key : string := "_".
  Definition no_pre (t : T) (a : Empty_set) (m : Mx) : result Mx := match a with end.

  Definition reset_run (data : nat -> X) (sample : X) :=
    prun explicit false (fun t (_ : option Empty_set) x => feat t x) kfun gram no_aux no_key default_args
         no_pre reset_assign data sample.
End Resetting.
Arguments reset_op T : clear implicits.
