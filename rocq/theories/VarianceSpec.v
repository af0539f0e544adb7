(** Vocabulary for histories of variance readings. *)
From Verif Require Import Base RVec TotalVariance.

(** Number of normalised reads of a representation since the last reset. *)
Fixpoint normalised (r : repr) (os : list tvop) (acc : nat) : nat :=
  match os with
  | [] => acc
  | TReset :: os' => normalised r os' 0
  | TRead r' b :: os' => normalised r os' (if (repr_eqb r' r && b)%bool then S acc else acc)
  end.
