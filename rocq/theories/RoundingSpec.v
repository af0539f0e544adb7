(** Vocabulary for machines that round. *)
From Verif Require Import Base RVec KernelR Rounding.
From Coq Require Import Permutation.
Open Scope R_scope.

(** What is asked of the rounding: it does not depend on the sign, keeps the order, and does not
    change zero and one.  All roundings to a nearest number are such. *)
Definition rounds (m : machine) : Prop :=
  rnd m 0 = 0 /\ rnd m 1 = 1 /\ (forall x, rnd m (- x) = - rnd m x) /\ (forall x y, x <= y -> rnd m x <= rnd m y).
(** Of the exponential: exact at zero, on the right side of zero, and of one for negative arguments. *)
Definition exponential (m : machine) : Prop :=
  mexp m 0 = 1 /\ (forall x, 0 <= mexp m x) /\ (forall x, x <= 0 -> mexp m x <= 1).
(** For the logistic kernel. *)
Definition balanced (m : machine) : Prop :=
  rnd m 2 = 2 /\ rnd m 4 = 4 /\ forall x, 2 <= rnd m (mexp m x + mexp m (- x)).
Definition increasing (f : R -> R) : Prop := forall x y, x <= y -> f x <= f y.

(** The numbers that are added up, and how many additions each goes through at most. *)
Fixpoint leaves (t : tree) : list nat := match t with Leaf i => [i] | Node a b => leaves a ++ leaves b end.
Fixpoint depth (t : tree) : nat := match t with Leaf _ => O | Node a b => S (Nat.max (depth a) (depth b)) end.
(** Each of [n] numbers is added exactly once. *)
Definition sums_all (m : machine) (n : nat) : Prop := Permutation (leaves (plan m n)) (seq 0 n).

(** A machine that does not round. *)
Definition exact (m : machine) : Prop :=
  (forall x, rnd m x = x) /\ (forall x, mexp m x = exp x) /\ (forall x, msin m x = sin x).
(** Relative accuracy of the operations and of the exponential. *)
Definition accurate (u : R) (m : machine) : Prop := 0 <= u < 1 /\ forall x, Rabs (rnd m x - x) <= u * Rabs x.
Definition exp_accurate (v : R) (m : machine) : Prop := 0 <= v /\ forall x, Rabs (mexp m x - exp x) <= v * exp x.
(** The error allowed after [n] operations of accuracy [u] and an exponential of accuracy [v]. *)
Definition tolerance (u v : R) (n : nat) : R := v + exp (- (1)) * (((1 + u) ^ n - (1 - u) ^ n) / (1 - u) ^ n).
