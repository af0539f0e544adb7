(** Means and covariances of the outputs of a level over the points of the sample. *)
From mathcomp Require Import all_ssreflect all_algebra.
Set Implicit Arguments. Unset Strict Implicit. Unset Printing Implicit Defensive.
Import GRing.Theory Num.Theory.
Local Open Scope ring_scope.

Section Scores.
  Variable R : rcfType.
  (** One row per point, one column per component. *)
  Definition component_mean n q (O : 'M[R]_(n, q)) (j : 'I_q) : R := n%:R^-1 * \sum_a O a j.
  Definition covariance n q (O : 'M[R]_(n, q)) : 'M[R]_q :=
    \matrix_(i, j) (n%:R^-1 * \sum_a (O a i - component_mean O i) * (O a j - component_mean O j)).
End Scores.
