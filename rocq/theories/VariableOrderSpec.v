(** Operations on a level that give no dual variables. *)
From Verif Require Import Base Cache Sample ViewState.

Section Spec.
  Context {F : Type}.
  Definition gives_no_dual (o : @vop F) : Prop :=
    match o with
    | VSetPrimal _ | VSetDim _ | VInit true _ | VAttach _ | VDetach => True
    | VSetDual _ | VUpdateDual _ | VInit false _ => False
    end.
End Spec.
