(** Another origin of the feature space. *)
From mathcomp Require Import all_ssreflect all_algebra.
From Verif Require Import MatrixSpec.
Set Implicit Arguments. Unset Strict Implicit. Unset Printing Implicit Defensive.
Import GRing.Theory Num.Theory.
Local Open Scope ring_scope.

Section Origin.
  Variable R : rcfType.

  (** The kernel [k(x, y) + f(x) + f(y)]: [f] on the points of the rows, [g] on those of the
      columns. *)
  Definition other_origin m n (f : 'cV[R]_m) (g : 'cV[R]_n) (K : 'M[R]_(m, n)) : 'M[R]_(m, n) :=
    \matrix_(i, j) (K i j + f i 0 + g j 0).
  (** Features seen from the point [c]. *)
  Definition seen_from m d (c : 'rV[R]_d) (Phi : 'M[R]_(m, d)) : 'M[R]_(m, d) := \matrix_(i, j) (Phi i j - c 0 j).
  (** Minus half of the squared distances between the rows of [X] and [Y]. *)
  Definition half_distances m n d (X : 'M[R]_(m, d)) (Y : 'M[R]_(n, d)) : 'M[R]_(m, n) :=
    \matrix_(i, j) (- (2%:R^-1 * \sum_l (X i l - Y j l) ^+ 2)).
  (** Positive on the vectors that sum to zero. *)
  Definition conditionally_psd n (K : 'M[R]_n) : Prop := forall c : 'cV[R]_n, \sum_i c i 0 = 0 -> 0 <= qform K c.
End Origin.
