(** What a prediction of missing views should do with the known ones (C125): the known
    values form a dictionary, keyed by the names or the numbers of the views. *)
From Verif Require Import Base MultiView.

(** The view called [k] is given with [m] points. *)
Definition given_points (known : list (vkey * option nat)) (k : string) (m : nat) : Prop :=
  In (KName k, Some m) known.
(** The view called [k] is not among the known ones. *)
Definition missing (known : list (vkey * option nat)) (k : string) : Prop :=
  forall v, ~ In (KName k, v) known.
(** Some view is given with [m] points, and no view with another number of points. *)
Definition points_agree (names : list string) (known : list (vkey * option nat)) (m : nat) : Prop :=
  (exists k, In k names /\ given_points known k m) /\
  forall k m', In k names -> given_points known k m' -> m' = m.
