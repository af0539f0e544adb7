(** Small independent vocabulary for the sample properties (C14-C17). *)
From Verif Require Import Base Cache CacheSpec ModuleTree Sample.
Open Scope Z_scope.

Section Spec.
  Context {F V : Type}.

  (** A tensor is rectangular. *)
  Definition rectangular (t : tensor F) : Prop :=
    forall row, In row (t_rows t) -> List.length row = t_cols t.

  (** The row of [t] numbered [p], if there is one. *)
  Definition row (t : tensor F) (p : nat) : option (list F) := nth_error (t_rows t) p.

  (** The last row given in [values] for the position [p] when the [k]-th row
      is meant for the position addressed by the [k]-th index. *)
  Definition addresses (n : Z) (p : nat) (i : Z) : Prop :=
    i = Z.of_nat p \/ i = Z.of_nat p - n.

  Definition addressesb (n : Z) (p : nat) (i : Z) : bool :=
    (i =? Z.of_nat p) || (i =? Z.of_nat p - n).

  Fixpoint last_given (n : Z) (idx : list Z) (values : list (list F)) (p : nat) : option (list F) :=
    match idx, values with
    | i :: idx', v :: values' =>
        match last_given n idx' values' p with
        | Some w => Some w
        | None => if addressesb n p i then Some v else None
        end
    | _, _ => None
    end.

  (** Announced dimensions agree with the stored sample whenever there is one. *)
  Definition dims_agree (s : sstate F V) : Prop :=
    empty_sample s = false ->
    ss_num s = Some (nrows (ss_sample s)) /\ ss_dim s = Some (ncols (ss_sample s)).

  (** The inputs of an operation are rectangular tensors. *)
  Definition good_arg (a : sample_arg F) : Prop :=
    match a with
    | NoSample => True
    | ParamSample t _ _ | DataSample t => rectangular t
    end.
  Definition good_op (o : sop F) : Prop :=
    match o with
    | SInit a _ => good_arg a
    | SUpdate v _ => rectangular v
    | _ => True
    end.
End Spec.
