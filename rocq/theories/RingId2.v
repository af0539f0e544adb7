(** Further polynomial identities in commutative rings. *)
From Coq Require Import Ring.

Section Abstract.
  Variables (T : Type) (zero one : T) (add mul : T -> T -> T) (opp : T -> T).
  Hypothesis rt : ring_theory zero one add mul (fun a b => add a (opp b)) opp (@eq T).
  Add Ring abstract_ring2 : rt.
  Local Infix "+" := add.
  Local Infix "*" := mul.
  Local Notation "- a" := (opp a).
  Local Notation "a - b" := (add a (opp b)).

  Lemma id_origin (k u v w z a b t : T) : k + u + v - (a + u + w) - (b + v + z) + (t + w + z) = k - a - b + t.
  Proof. ring. Qed.
  Lemma id_distance (h a b p : T) : - (h * (a + b - (p + p))) = (h + h) * p - h * a - h * b.
  Proof. ring. Qed.
  Lemma id_square_diff (x y : T) : (x - y) * (x - y) = x * x + y * y - (x * y + x * y).
  Proof. ring. Qed.
  Lemma id_seen (x y c : T) : (x - c) * (y - c) = x * y - x * c - y * c + c * c.
  Proof. ring. Qed.
End Abstract.

From mathcomp Require Import all_ssreflect all_algebra.
From Verif Require Import RingId.
Import GRing.Theory.
Local Open Scope ring_scope.

Section Ring.
  Variable R : comRingType.
  Lemma origin_identity (k u v w z a b t : R) : k + u + v - (a + u + w) - (b + v + z) + (t + w + z) = k - a - b + t.
  Proof. exact: (id_origin _ _ _ _ _ _ (mathcomp_ring R)). Qed.
  Lemma distance_identity (h a b p : R) : - (h * (a + b - (p + p))) = (h + h) * p - h * a - h * b.
  Proof. exact: (id_distance _ _ _ _ _ _ (mathcomp_ring R)). Qed.
  Lemma square_diff_identity (x y : R) : (x - y) * (x - y) = x * x + y * y - (x * y + x * y).
  Proof. exact: (id_square_diff _ _ _ _ _ _ (mathcomp_ring R)). Qed.
  Lemma seen_identity (x y c : R) : (x - c) * (y - c) = x * y - x * c - y * c + c * c.
  Proof. exact: (id_seen _ _ _ _ _ _ (mathcomp_ring R)). Qed.
End Ring.
