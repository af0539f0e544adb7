(** Specification of logging levels. *)
From Verif Require Import Base Logger.
Open Scope list_scope.

(** The object and what is below it. *)
Fixpoint below (o : logged) : list logged := match o with Logged _ _ children => o :: flat_map below children end.
(** The objects whose level an operation sets. *)
Definition addressed (op : lop) : list logged :=
  match op with LNew o _ => [o] | LSet o _ => below o | LDefault _ => [global_logger] end.
