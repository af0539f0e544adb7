(** Vocabulary for the properties of time and histogram kernels. *)
From Verif Require Import Base RVec TimeR.
Open Scope R_scope.

(** One-dimensional points. *)
Definition point (x : vec) : Prop := length x = 1%nat.

(** The documented profile. *)
Definition documented_hat (lag : R) (x y : vec) : R :=
  if Rle_dec (Rabs (time x - time y)) lag then lag + 1 - Rabs (time x - time y) else 0.

(** Integer time points. *)
Definition integer_point (x : vec) : Prop := exists z, x = [IZR z].

Definition histogram (x : vec) : Prop := Forall (fun a => 0 <= a) x /\ sum x = 1.

(** No feature lies strictly between zero and the numerical threshold. *)
Definition clear_of_threshold (x : vec) : Prop := Forall (fun a => a = 0 \/ EPS <= 2 * a) x.

(** The documented formulas (additive_chi_2.py:17-21, skewed_chi_2.py:18-22). *)
Definition documented_additive (x y : vec) : R := sum (zipw (fun a b => 2 * a * b / (a + b)) x y).
Definition documented_skewed (p : R) (x y : vec) : R :=
  product (zipw (fun a b => 2 * sqrt (a + p) * sqrt (b + p) / (a + b + 2)) x y).
