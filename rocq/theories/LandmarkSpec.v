(** Vocabulary: kernel matrices of points. *)
From mathcomp Require Import all_ssreflect all_algebra.
From Verif Require Import MatrixSpec.
Set Implicit Arguments. Unset Strict Implicit. Unset Printing Implicit Defensive.
Import GRing.Theory Num.Theory.
Local Open Scope ring_scope.

Section Spec.
  Variables (R : realFieldType) (X : Type) (kf : X -> X -> R).

  (** The kernel of some points with others, and what makes it a kernel. *)
  Definition gram n m (x : 'I_n -> X) (y : 'I_m -> X) : 'M[R]_(n, m) := \matrix_(i, j) kf (x i) (y j).
  Definition positive_kernel : Prop :=
    (forall a b, kf a b = kf b a) /\ (forall n (x : 'I_n -> X), psd (gram x x)).

  (** Every point of one sample is in another one. *)
  Definition among n m (x : 'I_n -> X) (y : 'I_m -> X) : Prop := forall i, exists j, x i = y j.
End Spec.
