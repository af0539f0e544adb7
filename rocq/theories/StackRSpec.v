(** Vocabulary for stacked random features over the reals. *)
From Verif Require Import Base RVec RandomFeaturesR RandomFeaturesRSpec StackR.
Open Scope R_scope.

(** A layer for points of [d] coordinates whose weights have independent columns, with an
    invertible activation. *)
Definition suited (d : nat) (l : rweights) : Prop :=
  admissible (rw_act l) /\ rw_w l <> [] /\ rect d (rw_w l) /\
  pseudo_inverse d (rw_w l) (rw_p l) /\ full_column_rank d (rw_w l).
(** Each layer takes what the previous one gives. *)
Fixpoint fits (d : nat) (ws : list rweights) : Prop :=
  match ws with
  | [] => True
  | l :: ws' => suited d l /\ fits (length (rw_w l)) ws'
  end.
