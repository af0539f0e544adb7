(** Ridge regression ([kerch/level/single_view/Ridge.py]) on matrices over a real closed field.
    Definitions only.  The methods are called without a target by [solve] and read an attribute
    that does not exist (see Ctor.v); here are the systems that their other lines build, on the
    targets they are meant to get.  [gamma] is a number different from zero. *)
From mathcomp Require Import all_ssreflect all_algebra.
From Verif Require Import KpcaM LssvmM.
Set Implicit Arguments. Unset Strict Implicit. Unset Printing Implicit Defensive.
Import GRing.Theory Num.Theory.
Local Open Scope ring_scope.

Section Ridge.
  Variable R : rcfType.
  (** [_solve_dual] (Ridge.py:34-45) with the whole sample selected; [1 / self._gamma]. *)
  Definition ridge_dual n q (K : 'M[R]_n) (gamma : R) (Y : 'M[R]_(n, q)) : option 'M[R]_(n, q) :=
    linsolve (K + gamma^-1 *: 1%:M) Y.
  (** [_solve_primal] (18-31): the matrix is the second moment of the features. *)
  Definition ridge_primal n d q (Phi : 'M[R]_(n, d)) (gamma : R) (Y : 'M[R]_(n, q)) : option 'M[R]_(d, q) :=
    linsolve (second_moment Phi + gamma^-1 *: 1%:M) (Phi^T *m Y).
  (** The predictions, as in [LssvmM.v], without a bias (View.py:231-235, _View.py:324-344). *)
  Definition ridge_predict_dual n q (h : 'M[R]_(n, q)) m (k : 'M[R]_(m, n)) : 'M[R]_(m, q) := k *m h.
  Definition ridge_predict_primal d q (kappa : R) (w : 'M[R]_(d, q)) m (phi : 'M[R]_(m, d)) : 'M[R]_(m, q) :=
    (Num.sqrt kappa *: phi) *m w.
End Ridge.
