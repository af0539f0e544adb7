(** Vocabulary for the iterative method. *)
From mathcomp Require Import all_ssreflect all_algebra.
Set Implicit Arguments. Unset Strict Implicit. Unset Printing Implicit Defensive.
Import GRing.Theory Num.Theory.
Local Open Scope ring_scope.

Section Spec.
  Variable R : realFieldType.
  Definition dot m d (A B : 'M[R]_(m, d)) : R := \sum_i \sum_j A i j * B i j.
  Definition dist2 m d (A B : 'M[R]_(m, d)) : R := \sum_i \sum_j (A i j - B i j) ^+ 2.
  (** [g] is a gradient of [f], which is above its tangents (convex) or below the parabolas of
      curvature [L] on its tangents (smooth). *)
  Definition convex m d (f : 'M[R]_(m, d) -> R) (g : 'M[R]_(m, d) -> 'M[R]_(m, d)) : Prop :=
    forall x y, f x + dot (g x) (y - x) <= f y.
  Definition smooth m d (L : R) (f : 'M[R]_(m, d) -> R) (g : 'M[R]_(m, d) -> 'M[R]_(m, d)) : Prop :=
    forall x y, f y <= f x + dot (g x) (y - x) + L / 2%:R * dist2 y x.
End Spec.
