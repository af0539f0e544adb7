(** Finite rose trees: the shape of a hierarchy of [torch.nn.Module]s. *)
From Verif Require Import Base.

Inductive tree (A : Type) : Type := Node (a : A) (ts : list (tree A)).
Arguments Node {A} a ts.

Section Tree.
  Context {A : Type}.

  Definition root (t : tree A) : A := match t with Node a _ => a end.
  Definition subtrees (t : tree A) : list (tree A) := match t with Node _ ts => ts end.

  (** All modules of the hierarchy, the root first. *)
  Fixpoint nodes (t : tree A) : list A :=
    match t with Node a ts => a :: flat_map nodes ts end.

  (** Modules with their depth below the root. *)
  Fixpoint nodes_depth (d : nat) (t : tree A) : list (nat * A) :=
    match t with Node a ts => (d, a) :: flat_map (nodes_depth (S d)) ts end.

  Fixpoint height (t : tree A) : nat :=
    match t with Node _ ts => S (fold_right (fun t m => Nat.max (height t) m) 0 ts) end.

  Fixpoint all_nodes (P : A -> Prop) (t : tree A) : Prop :=
    match t with
    | Node a ts => P a /\ fold_right (fun t Q => all_nodes P t /\ Q) True ts
    end.
End Tree.
