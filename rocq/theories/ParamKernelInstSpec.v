(** What random-feature and polynomial kernels should answer, and the histories of
    the theorems about them. *)
From Verif Require Import Base Cache CacheSpec ParamKernel ParamKernelSpec ParamKernelInst.

Section RandomFeatures.
  Context {W Sg X Mx Pi : Type}.
  Variable nrows : W -> nat.
  Variable fits : W -> bool.
  Variable act : W -> nat -> Sg -> X -> Mx.
  Variable mul : Mx -> Mx -> Mx.
  Variable pinv : W -> Pi.
  Variable inv : nat -> Pi -> Sg -> Mx -> Mx.
  Variable data : nat -> X.
  Variable sample : X.

  (** The feature map of the weights in force, scaled by their own number. *)
  Definition rf_map (t : rf_par W Sg) (x : X) : Mx := act (rf_w t) (nrows (rf_w t)) (rf_sigma t) x.

  (** The output shows the weights and bandwidth in force. *)
  Definition rf_shows (e : rf_par W Sg * pop Mx (rf_op W Sg) * pout Mx) : Prop :=
    match e with
    | (t, PReadPhi, out) => out = POut (Ok (rf_map t sample))
    | (t, PReadK, out) => out = POut (Ok (mul (rf_map t sample) (rf_map t sample)))
    | (t, PReadphi x, out) => out = POut (Ok (rf_map t (object data sample x)))
    | (t, PReadk x, out) => out = POut (Ok (mul (rf_map t (object data sample x)) (rf_map t sample)))
    | (t, PPreimage m, out) => out = POut (Ok (inv (nrows (rf_w t)) (pinv (rf_w t)) (rf_sigma t) m))
    | _ => True
    end.

  (** New weights have as many rows as the old ones (or as announced), and whoever
      replaces weights resets the kernel at once. *)
  Fixpoint rf_history (t : rf_par W Sg) (os : list (pop Mx (rf_op W Sg))) : Prop :=
    match os with
    | [] => True
    | o :: os' =>
        match o with
        | PAssign (RFWeights w) | PAssign (RFStep w) => nrows w = nrows (rf_w t) /\ fully_reset os'
        | PAssign (RFNum n w) => nrows w = n /\ fully_reset os'
        | PLevel l => known_level l
        | _ => True
        end /\
        rf_history (match o with PAssign a => snd (rf_assign fits a t) | _ => t end) os'
    end.
End RandomFeatures.

Section Polynomial.
  Context {F X Mx : Type}.
  Variable natural : F -> bool.
  Variable rootable : F -> bool.
  Variable pfeat : F -> F -> X -> Mx.
  Variable pker : F -> F -> X -> X -> Mx.
  Variable gram : Mx -> Mx.
  Variable data : nat -> X.
  Variable sample : X.

  (** The feature map of the degree and offset in force. *)
  Definition poly_map (t : poly_par F) (x : X) : result Mx :=
    if natural (poly_alpha t) then
      if rootable (poly_beta t) then Ok (pfeat (poly_alpha t) (poly_beta t) x) else Err EValueError
    else Err EAssertionError.
  Definition poly_shows (e : poly_par F * pop Mx (poly_op F) * pout Mx) : Prop :=
    match e with
    | (t, PReadPhi, out) => out = POut (poly_map t sample)
    | (t, PReadK, out) =>
        out = POut (if natural (poly_alpha t) then bind (poly_map t sample) (fun m => Ok (gram m))
                    else Ok (pker (poly_alpha t) (poly_beta t) sample sample))
    | (t, PReadphi x, out) => out = POut (poly_map t (object data sample x))
    | (t, PReadk x, out) => out = POut (Ok (pker (poly_alpha t) (poly_beta t) (object data sample x) sample))
    | (t, PPreimage m, out) => exists e, out = POut (Err e)
    | _ => True
    end.

  (** The only documented way to assign is missing; what is left are level changes
      with documented names, resets, readings, and assignments to [alpha]. *)
  Definition levels_known {M O} (os : list (pop M O)) : Prop :=
    Forall (fun o => match o with PLevel l => known_level l | _ => True end) os.
  (** Assignments are followed at once by a full reset. *)
  Fixpoint reset_after_assignment {M O} (os : list (pop M O)) : Prop :=
    match os with
    | [] => True
    | PAssign _ :: os' => fully_reset os' /\ reset_after_assignment os'
    | _ :: os' => reset_after_assignment os'
    end.
End Polynomial.
