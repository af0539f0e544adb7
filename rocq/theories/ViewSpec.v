(** Vocabulary for the variables of a level. *)
From Verif Require Import Base Cache Sample ViewState.
Open Scope nat_scope.

Section Spec.
  Context {F : Type}.
  (** A matrix with [n] rows of [q] entries. *)
  Definition matrix (n q : nat) (t : @tensor F) : Prop :=
    List.length (t_rows t) = n /\ t_cols t = q /\ Forall (fun r => List.length r = q) (t_rows t).
  (** The whole sample is selected, in order. *)
  Definition whole (n : nat) : list Z := map Z.of_nat (seq 0 n).
  (** The components that are not small, with their columns. *)
  Definition kept (small : F -> bool) (v : list F) : list F := filter (fun x => negb (small x)) v.
  (** The eigendecomposition gives the requested number of values and vectors. *)
  Definition good_eig (eig : nat -> list F * @tensor F) (n : nat) : Prop :=
    forall q, q <= n -> List.length (fst (eig q)) = q /\ matrix n q (snd (eig q)).
  (** The variables are not initialised. *)
  Definition unset {A} (r : result A) : Prop := r = Err ENotInitialized.
End Spec.

(** An initialisation for examples. *)
Definition ones (n q : nat) : @tensor nat := Tensor q (repeat (repeat 1 q) n).
