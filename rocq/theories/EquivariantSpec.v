(** Vocabulary for observations in other coordinates or in another order. *)
From Coq Require Import Permutation.
From Verif Require Import Base RVec.
Open Scope R_scope.

(** The coordinates of a point after a linear change, whose rows are [A], and a shift [b]. *)
Definition affine (A : mat) (b : vec) (x : vec) : vec := zipw Rplus (map (dot x) A) b.
(** The same for whatever is defined. *)
Definition answers {A B : Type} (f : A -> B) (r : result A) : result B :=
  match r with Ok a => Ok (f a) | Err e => Err e end.
(** A list in the order [p], which holds every position once. *)
Definition order_of (n : nat) (p : list nat) : Prop := Permutation p (seq 0 n).
Definition in_order {A : Type} (default : A) (p : list nat) (l : list A) : list A := map (fun i => nth i l default) p.
