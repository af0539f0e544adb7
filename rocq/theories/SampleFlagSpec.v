(** What decides whether the points of a sample are trained, and which gradient they
    carry (C200): only the operations of the caller, read from the first to the last. *)
From Verif Require Import Base Cache ModuleTree Sample.

Section Spec.
  Context {F : Type}.

  (** The last word on training: a parameter handed over as the sample brings its own
      flag, an assignment of [sample_trainable] sets it, and nothing else has a say. *)
  Fixpoint last_word (b : bool) (os : list (sop F)) : bool :=
    match os with
    | [] => b
    | SInit (ParamSample _ rg _) _ :: os' => last_word rg os'
    | STrainable b' :: os' => last_word b' os'
    | _ :: os' => last_word b os'
    end.

  (** The gradient carried by the points: that of the last parameter handed over or
      the last one deposited; plain values start without. *)
  Fixpoint last_gradient (g : option (tensor F)) (os : list (sop F)) : option (tensor F) :=
    match os with
    | [] => g
    | SInit (ParamSample _ _ g') _ :: os' => last_gradient g' os'
    | SInit (DataSample _) _ :: os' => last_gradient None os'
    | SGrad g' :: os' => last_gradient (Some g') os'
    | _ :: os' => last_gradient g os'
    end.

  (** No creation of points from dimensions only. *)
  Definition no_creation (o : sop F) : Prop :=
    match o with SInit NoSample _ | SSetDim _ | SSetNum _ => False | _ => True end.

  (** The points handed over, and the flag and gradient they come with. *)
  Definition handed_over (b : bool) (a : sample_arg F) : option (tensor F * bool * option (tensor F)) :=
    match a with
    | NoSample => None
    | ParamSample t rg g => Some (t, rg, g)
    | DataSample t => Some (t, b, None)
    end.
End Spec.
