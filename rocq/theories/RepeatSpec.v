(** Vocabulary for a training set that holds every point several times. *)
From mathcomp Require Import all_ssreflect.
Set Implicit Arguments. Unset Strict Implicit. Unset Printing Implicit Defensive.

Section Spec.
  (** The [a]-th of [N] training points is the point [c a], and each of the [n] points comes [m] times. *)
  Definition copies N n (m : nat) (c : 'I_N -> 'I_n) : Prop := forall i, #|[pred a | c a == i]| = m.
End Spec.
