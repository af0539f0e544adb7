(** What a kernel with parameters should answer, from the parameters in force
    alone, and the histories considered. *)
From Verif Require Import Base Cache CacheSpec CacheReader ParamKernel.
Open Scope Z_scope.

Section Spec.
  Context {T X Mx Ax O : Type}.
  Variable explicit : T -> bool.
  Variable needs_aux : bool.
  Variable feat : T -> option Ax -> X -> result Mx.
  Variable kfun : T -> X -> X -> result Mx.
  Variable gram : Mx -> Mx.
  Variable aux : T -> result Ax.
  Variable akey : string.
  Variable aargs : get_args.
  Variable pre : T -> Ax -> Mx -> result Mx.
  Variable assign : O -> T -> result unit * option bool * T.
  Variable data : nat -> X.
  Variable sample : X.

  Definition true_feat (t : T) (x : X) : result Mx :=
    if needs_aux then bind (aux t) (fun a => feat t (Some a) x) else feat t None x.
  Definition true_K (t : T) : result Mx :=
    if explicit t then bind (true_feat t sample) (fun m => Ok (gram m)) else kfun t sample sample.
  Definition object (x : option nat) : X := match x with Some x => data x | None => sample end.

  (** The output shows the value for the parameters in force. *)
  Definition shows_parameters (e : T * pop Mx O * pout Mx) : Prop :=
    match e with
    | (t, PReadPhi, POut r) => r = true_feat t sample
    | (t, PReadK, POut r) => r = true_K t
    | (t, PReadphi x, POut r) => r = true_feat t (object x)
    | (t, PReadk x, POut r) => r = kfun t (object x) sample
    | (t, PPreimage m, POut r) => r = bind (aux t) (fun a => pre t a m)
    | (_, (PAssign _ | PLevel _ | PReset _), PUnit _) => True
    | _ => False
    end.

  (** An assignment that cannot leave anything out of date: it leaves the
      parameters as they are, or it resets the cache and the helper value is
      dropped, recomputed at each use, or unaffected. *)
  Definition clean_assignment (t : T) (o : O) : Prop :=
    let '(_, reset, t') := assign o t in
    t' = t \/
    exists p, reset = Some p /\
      (p = true \/ a_persisting aargs = false \/ a_overwrite aargs = true \/ aux t' = aux t).

  (** Level names are documented ones; an assignment that is not clean is followed
      at once by a full reset. *)
  Definition fully_reset (os : list (pop Mx O)) : Prop :=
    match os with PReset true :: _ => True | _ => False end.
  Fixpoint careful (s : pstate T Mx Ax) (os : list (pop Mx O)) : Prop :=
    match os with
    | [] => True
    | o :: os' =>
        match o with
        | PAssign o => clean_assignment (p_par s) o \/ fully_reset os'
        | PLevel l => known_level l
        | _ => True
        end /\
        careful (snd (pstep explicit needs_aux feat kfun gram aux akey aargs pre assign data sample s o)) os'
    end.
End Spec.
