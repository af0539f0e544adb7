(** Sequences of plain gradient steps and what they amount to. *)
From mathcomp Require Import all_ssreflect all_algebra.
From Verif Require Import Stiefel.
Set Implicit Arguments. Unset Strict Implicit. Unset Printing Implicit Defensive.
Import GRing.Theory Num.Theory.
Local Open Scope ring_scope.

Section Momentum.
  Variable R : rcfType.
  Variables m n : nat.

  (** The steps on a list of gradients, from a parameter and its buffer. *)
  Definition plain_steps (o : sgd_options R) (s : 'M[R]_(m, n) * option 'M[R]_(m, n)) (gs : seq 'M[R]_(m, n)) :=
    foldl (fun s g => (sgd_plain o s g).1) s gs.
  (** The velocity after [k] gradients: each is weighted by the momentum to the power of its age. *)
  Definition velocity (mu : R) (gs : seq 'M[R]_(m, n)) (k : nat) : 'M[R]_(m, n) :=
    \sum_(i < k) mu ^+ (k - i.+1) *: gs`_i.

  (** The steps of the other optimiser on the manifold, from a parameter without state. *)
  Definition adam_steps (o : adam_options R) qr (p : 'M[R]_(m, n)) (gs : seq ('M[R]_(m, n) * bool)) :=
    foldl (fun s g => adam_stiefel o qr g.2 s g.1) (p, None) gs.
  (** The weighted mean of the squared norms of the gradients. *)
  Definition mean_square (beta : R) (gs : seq ('M[R]_(m, n) * bool)) : R :=
    (1 - beta) * \sum_(i < size gs) beta ^+ (size gs - i.+1) * \sum_j \sum_k (map fst gs)`_i j k ^+ 2.
End Momentum.
