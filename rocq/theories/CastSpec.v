(** Specification of arrays. *)
From Verif Require Import Base Cast.
Open Scope nat_scope.
Open Scope list_scope.

Section C.
Context {A : Type}.
(** The number of entries of a shape, and the position of an index in row-major order. *)
Fixpoint count (shape : list nat) : nat := match shape with [] => 1 | d :: s => d * count s end.
Fixpoint position (shape idx : list nat) : option nat :=
  match shape, idx with
  | [], [] => Some 0
  | d :: s, i :: is => if Nat.ltb i d then option_map (plus (i * count s)) (position s is) else None
  | _, _ => None
  end.
Definition well_formed (x : array A) : Prop := List.length (a_data x) = count (a_shape x).
(** The entry at an index; none if the index does not fit the shape. *)
Definition entry (x : array A) (idx : list nat) : option A :=
  match position (a_shape x) idx with Some p => nth_error (a_data x) p | None => None end.
End C.
