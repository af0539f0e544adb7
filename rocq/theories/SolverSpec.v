(** Vocabulary: several decompositions of the same matrix. *)
From mathcomp Require Import all_ssreflect all_fingroup all_algebra.
Set Implicit Arguments. Unset Strict Implicit. Unset Printing Implicit Defensive.
Import GRing.Theory Num.Theory.
Local Open Scope ring_scope.

Section Spec.
  Variables (R : realFieldType) (n : nat).
  (** The last of the [k] largest eigenvalues is larger than the next one, or falls under the
      threshold anyway. *)
  Definition separated (eps : R) (k : nat) (s : 'rV[R]_n) : Prop :=
    forall i j : 'I_n, (i < n - k)%N -> (n - k <= j)%N -> s 0 i < s 0 j \/ s 0 j < eps.
  (** The columns in another order. *)
  Definition reorder (p : 'S_n) m (x : 'M[R]_(m, n)) : 'M[R]_(m, n) := \matrix_(a, i) x a (p i).
End Spec.
