(** Where iterative pre-images are meant to start: specification. *)
From Verif Require Import Base RVec.
Open Scope R_scope.

(** [p] is a point of the sample and none has a larger value in [row], which has one value for each
    point of the sample. *)
Definition most_similar (sample : mat) (row p : vec) : Prop :=
  exists a, (a < length sample)%nat /\ p = nth a sample [] /\ forall b, (b < length sample)%nat -> nth b row 0 <= nth a row 0.
(** One such point for each row of values. *)
Definition starts_at (sample values x0 : mat) : Prop :=
  length x0 = length values /\ forall r, (r < length values)%nat -> most_similar sample (nth r values []) (nth r x0 []).
