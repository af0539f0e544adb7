(** What independence means. *)
From Verif Require Import Base Copies.
Open Scope nat_scope.
Open Scope list_scope.

(** No function is stored in an object. *)
Definition no_closure {V} (h : heap V) : Prop := forall r f b, In r h -> In (f, Closure b) r -> False.
(** Objects only refer to objects of the heap. *)
Definition closed {V} (h : heap V) : Prop := forall r f b, In r h -> In (f, Ref b) r \/ In (f, Closure b) r -> b < List.length h.
Definition of_original {V} (n : nat) (w : assign V) : Prop := as_obj w < n.
Definition of_copy {V} (n : nat) (w : assign V) : Prop := n <= as_obj w.
