(** Vocabulary for probabilistic principal components. *)
From mathcomp Require Import all_ssreflect all_algebra.
From Verif Require Import KpcaSpec.
Set Implicit Arguments. Unset Strict Implicit. Unset Printing Implicit Defensive.
Import GRing.Theory Num.Theory.
Local Open Scope ring_scope.

Section Spec.
  Variable R : rcfType.
  (** Up to a factor and a constant, minus the logarithm of the probability of the latent [h] for
      the features [phi], when [phi] is [h W^T] plus a noise of deviation [sigma] in each
      direction and [h] is standard. *)
  Definition unlikeliness (sigma : R) d q (W : 'M[R]_(d, q)) m (phi : 'M[R]_(m, d)) (h : 'M[R]_(m, q)) : R :=
    frobenius2 (phi - h *m W^T) + sigma ^+ 2 * frobenius2 h.
  (** The variances of a decomposition that are not among the [q] largest. *)
  Definition left_out_sum n (s : 'rV[R]_n) (q : nat) : R := \sum_(j : 'I_n | (j < n - q)%N) s 0 j.
  (** What a Cholesky decomposition returns. *)
  Definition cholesky d (A L : 'M[R]_d) : Prop :=
    L *m L^T = A /\ (forall i j : 'I_d, (i < j)%N -> L i j = 0) /\ (forall i, 0 < L i i).
  Definition diagonal d (A : 'M[R]_d) : Prop := forall i j, i != j -> A i j = 0.
End Spec.
