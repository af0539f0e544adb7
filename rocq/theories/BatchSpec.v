(** Vocabulary for evaluations point by point. *)
From Verif Require Import Base RVec.
Open Scope R_scope.

(** The matrix of the values of a function of two points. *)
Definition table {P Q : Type} (g : P -> Q -> R) (x : list P) (y : list Q) : mat := map (fun a => map (g a) y) x.

(** The answers for the points [x] and for the points [y], put together: an error, or the answers one after
    the other. *)
Definition together {A : Type} (r s : result (list A)) : result (list A) :=
  bind r (fun a => bind s (fun b => Ok (a ++ b))).
