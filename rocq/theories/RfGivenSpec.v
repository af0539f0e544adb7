(** Histories of a random-feature kernel during which its number of weights is not
    assigned, and readings that all fail. *)
From Verif Require Import Base Cache CacheSpec ParamKernel ParamKernelInst.

Section Spec.
  Context {W Sg Mx : Type}.

  (** No assignment of [num_weights]; documented level names. *)
  Definition number_not_assigned (os : list (pop Mx (rf_op W Sg))) : Prop :=
    Forall (fun o => match o with
                     | PAssign (RFNum _ _) => False
                     | PLevel l => known_level l
                     | _ => True
                     end) os.

  (** Every reading (features, kernel matrix, of the sample or of other points,
      pre-image) raises an [AttributeError]. *)
  Definition reading_fails (e : rf_par W Sg * pop Mx (rf_op W Sg) * pout Mx) : Prop :=
    match e with
    | (_, (PAssign _ | PLevel _ | PReset _), _) => True
    | (_, _, out) => out = POut (Err EAttributeError)
    end.
End Spec.
