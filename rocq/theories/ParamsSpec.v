(** What is expected of the parameters handed to the optimiser. *)
From Verif Require Import Base Params.
Open Scope nat_scope.
Open Scope list_scope.

(** [l'] lists each element of [l] once, in the order of the first occurrences. *)
Fixpoint first_at (p : nat) (l : list nat) : option nat :=
  match l with
  | [] => None
  | q :: l' => if Nat.eqb p q then Some 0 else option_map S (first_at p l')
  end.
Definition each_once_in_order (l l' : list nat) : Prop :=
  NoDup l' /\ (forall p, In p l' <-> In p l) /\
  forall i j p q a b, i < j -> nth_error l' i = Some p -> nth_error l' j = Some q ->
    first_at p l = Some a -> first_at q l = Some b -> a < b.

(** A parameter offered for training somewhere in a tree of kerch modules. *)
Inductive offered (k : manifold) (p : nat) : pmod -> Prop :=
| offered_here : forall b lys cs ly, In ly lys -> In (k, p) (ly_offers ly) -> offered k p (PMod b lys cs)
| offered_below : forall b lys cs c, In c cs -> is_kerch c = true -> offered k p c -> offered k p (PMod b lys cs).

(** How often a parameter occurs in the groups of an optimiser. *)
Definition occurrences (p : nat) (gs : list (manifold * list nat)) : nat :=
  count_occ Nat.eq_dec (flat_map snd gs) p.

(** The classes of kernels and levels that hand over what they offer. *)
Inductive sound_layer : layer -> Prop :=
| s_sample : forall a, sound_layer (ly_sample a)
| s_distance : forall a, sound_layer (ly_distance a)
| s_polynomial : forall a b, sound_layer (ly_polynomial a b)
| s_skewed : forall a, sound_layer (ly_skewed a)
| s_indicator : forall a b, sound_layer (ly_indicator a b)
| s_hat : forall a, sound_layer (ly_hat a)
| s_implicit : forall l, sound_layer (ly_implicit_nn l)
| s_kpca : forall o, sound_layer (ly_kpca o).
Inductive sound_tree : pmod -> Prop :=
| sound_node : forall b lys cs, Forall sound_layer lys -> Forall sound_tree cs -> sound_tree (PMod b lys cs).
