(** Vocabulary for changes of units. *)
From Verif Require Import Base RVec.
Open Scope R_scope.

(** Every coordinate is multiplied by [c], and shifted by its own offset. *)
Definition convert (c : R) (offsets x : vec) : vec := zipw (fun a o => c * a + o) x offsets.
