(** Fitting on some of the training points only. *)
From mathcomp Require Import all_ssreflect all_algebra.
Set Implicit Arguments. Unset Strict Implicit. Unset Printing Implicit Defensive.
Import GRing.Theory Num.Theory.
Local Open Scope ring_scope.

Section Spec.
  Variable R : rcfType.
  (** The points [f 0], [f 1], ... of the training points: the kernel matrix and the targets of
      these points, and the kernel values of other points with these points. *)
  Definition between n m (f : 'I_m -> 'I_n) (K : 'M[R]_n) : 'M[R]_m := \matrix_(a, b) K (f a) (f b).
  Definition rows_of n m q (f : 'I_m -> 'I_n) (Y : 'M[R]_(n, q)) : 'M[R]_(m, q) := \matrix_(a, j) Y (f a) j.
  Definition columns_of n m p (f : 'I_m -> 'I_n) (k : 'M[R]_(p, n)) : 'M[R]_(p, m) := \matrix_(a, j) k a (f j).
  (** [f] is a choice of points when no point is taken twice; [i] is left out. *)
  Definition left_out n m (f : 'I_m -> 'I_n) (i : 'I_n) : Prop := forall a, f a != i.
End Spec.
