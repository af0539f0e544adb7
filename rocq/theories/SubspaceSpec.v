(** Vocabulary for isolated components. *)
From mathcomp Require Import all_ssreflect all_algebra.
Set Implicit Arguments. Unset Strict Implicit. Unset Printing Implicit Defensive.
Import GRing.Theory Num.Theory.
Local Open Scope ring_scope.

Section Spec.
  Variable R : realFieldType.
  (** Of eigenvalues in ascending order, each one of the [q] largest exceeds each other one by at
      least [g]. *)
  Definition gap n (q : nat) (s : 'rV[R]_n) (g : R) : Prop :=
    forall i j : 'I_n, (i < n - q)%N -> (n - q <= j)%N -> s 0 i + g <= s 0 j.
  (** The eigenvalue at position [j] is at a distance of at least [g] from every other one. *)
  Definition isolated n (j : 'I_n) (s : 'rV[R]_n) (g : R) : Prop :=
    forall i : 'I_n, i != j -> g <= `|s 0 i - s 0 j|.
End Spec.
