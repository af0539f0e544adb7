(** Further polynomial identities in commutative rings. *)
From Coq Require Import Ring.

Section Abstract.
  Variables (T : Type) (zero one : T) (add mul : T -> T -> T) (opp : T -> T).
  Hypothesis rt : ring_theory zero one add mul (fun a b => add a (opp b)) opp (@eq T).
  Add Ring abstract_ring3 : rt.
  Local Infix "+" := add.
  Local Infix "*" := mul.
  Local Notation "- a" := (opp a).
  Local Notation "a - b" := (add a (opp b)).

  Lemma id_energy (d g u v w : T) : d * d * g * (u - g * v) = d * d * g * u - d * g * (d * g * v).
  Proof. ring. Qed.
  Lemma id_rest (s w x y : T) : x + x - y = w - (w - x + (- x + y)).
  Proof. ring. Qed.
  Lemma id_gap (a A B C D F t : T) : a * (A + t * B + C) + (D + t * (- (a * B)) + F) = a * A + D + a * C + F.
  Proof. ring. Qed.
  Lemma id_norm (p z r : T) : p + z + (z + r) - (z + z + (z + z)) = p - z + (- z + r).
  Proof. ring. Qed.
End Abstract.

From mathcomp Require Import all_ssreflect all_algebra.
From Verif Require Import RingId.
Import GRing.Theory.
Local Open Scope ring_scope.

Section Ring.
  Variable R : comRingType.
  Lemma energy_identity (d g u v : R) : d * d * g * (u - g * v) = d * d * g * u - d * g * (d * g * v).
  Proof. exact: (id_energy _ _ _ _ _ _ (mathcomp_ring R) d g u v 0). Qed.
  Lemma rest_identity (w x y : R) : x + x - y = w - (w - x + (- x + y)).
  Proof. exact: (id_rest _ _ _ _ _ _ (mathcomp_ring R) 0 w x y). Qed.
  Lemma gap_identity (a A B C D F t : R) : a * (A + t * B + C) + (D + t * (- (a * B)) + F) = a * A + D + a * C + F.
  Proof. exact: (id_gap _ _ _ _ _ _ (mathcomp_ring R)). Qed.
  Lemma norm_identity (p z r : R) : p + z + (z + r) - 4%:R * z = p - z + (- z + r).
  Proof.
    have -> : 4%:R * z = z + z + (z + z) by rewrite mulr_natl (mulrnDr z 2 2) mulr2n.
    exact: (id_norm _ _ _ _ _ _ (mathcomp_ring R)).
  Qed.
End Ring.
