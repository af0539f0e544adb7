(** How far apart two points are for a kernel. *)
From mathcomp Require Import all_ssreflect all_algebra.
Set Implicit Arguments. Unset Strict Implicit. Unset Printing Implicit Defensive.
Import GRing.Theory Num.Theory.
Local Open Scope ring_scope.

Section Spec.
  Variable R : rcfType.
  (** The squared distance of the features of the points [x] and [y], from the matrix [G] of the
      kernel between the points. *)
  Definition kernel_dist2 m (G : 'M[R]_m) (x y : 'I_m) : R := G x x - G x y - G y x + G y y.
  (** The squared norm of the weights that the dual variables [h] stand for, for the output [j]. *)
  Definition weight_norm2 n q (K : 'M[R]_n) (h : 'M[R]_(n, q)) (j : 'I_q) : R := \sum_a \sum_b h a j * K a b * h b j.
End Spec.
