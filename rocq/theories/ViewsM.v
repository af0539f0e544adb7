(** The kernel matrix and the features of several views
    ([kerch/level/multi_view/MultiView.py]) on matrices over a real closed field.  Definitions
    only; the components are those of [KpcaM.v], found in one matrix for all the views. *)
From mathcomp Require Import all_ssreflect all_algebra.
Set Implicit Arguments. Unset Strict Implicit. Unset Printing Implicit Defensive.
Import GRing.Theory Num.Theory.
Local Open Scope ring_scope.

Section Views.
  Variable R : rcfType.
  (** [View.phi], [View.K] (single_view/View.py:219-229): the factor [kappa] of a view.  Its
      square root is [_kappa_sqrt]. *)
  Definition view_K n (kappa : R) (K : 'M[R]_n) : 'M[R]_n := kappa *: K.
  Definition view_phi n d (kappa : R) (Phi : 'M[R]_(n, d)) : 'M[R]_(n, d) := Num.sqrt kappa *: Phi.
  (** [K] (MultiView.py:213-220): the sum of the matrices of the views. *)
  Definition all_K p n (K : 'I_p -> 'M[R]_n) : 'M[R]_n := \sum_v K v.
  (** [phi] (MultiView.py:192-193): the features side by side; here those of the views up to
      some point, and of one more. *)
  Definition all_phi n d e (Phi : 'M[R]_(n, d)) (Psi : 'M[R]_(n, e)) : 'M[R]_(n, d + e) := row_mx Phi Psi.
End Views.
