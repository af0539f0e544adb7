(** Polynomial identities in commutative rings, by normalisation. *)
From Coq Require Import Ring.

Section Abstract.
  Variables (T : Type) (zero one : T) (add mul : T -> T -> T) (opp : T -> T).
  Hypothesis rt : ring_theory zero one add mul (fun a b => add a (opp b)) opp (@eq T).
  Add Ring abstract_ring : rt.
  Local Infix "+" := add.
  Local Infix "*" := mul.
  Local Notation "- a" := (opp a).
  Local Notation "a - b" := (add a (opp b)).

  Lemma id_weights (a g H x d : T) :
    a * (a * H - g * x) = (a * a * H - (a * g * x + a * g * x) + g * g * d) + g * (a * x - g * d).
  Proof. ring. Qed.
  Lemma id_residuals (a b A B p : T) :
    (a - b) * (B - A) = (a + b) * (A + B - (p + p)) + ((a * p - a * A - (b * B - b * p)) + (a * p - a * A - (b * B - b * p))).
  Proof. ring. Qed.
  Lemma id_square (A B p : T) : A - p + (- p + B) = A + B - (p + p).
  Proof. ring. Qed.
  Lemma id_swap (x y z w : T) : x - y - (z - w) = x - z - (y - w).
  Proof. ring. Qed.
  Lemma id_best (u w s : T) : u * u - (w * u + w * u - s * (w * w)) * s = (u - s * w) * (u - s * w).
  Proof. ring. Qed.
  Lemma id_two (x y : T) : x * x + x * y + x * y + (one + one) * (y * y) = (x + y) * (x + y) + y * y.
  Proof. ring. Qed.
End Abstract.

From mathcomp Require Import all_ssreflect all_algebra.
Import GRing.Theory.
Local Open Scope ring_scope.

Section Ring.
  Variable R : comRingType.
  Lemma mathcomp_ring : @ring_theory R 0 1 +%R *%R (fun a b => a - b) -%R (@eq R).
  Proof. split => *; rewrite ?add0r ?mul1r ?addrA ?mulrA ?mulrDl ?subrr //; by [exact: addrC|exact: mulrC]. Qed.

  Lemma best_identity (u w s : R) : u * u - (w * u + w * u - s * (w * w)) * s = (u - s * w) * (u - s * w).
  Proof. exact: (id_best _ _ _ _ _ _ mathcomp_ring). Qed.
  Lemma weights_identity (a g H x d : R) :
    a * (a * H - g * x) = (a * a * H - (a * g * x + a * g * x) + g * g * d) + g * (a * x - g * d).
  Proof. exact: (id_weights _ _ _ _ _ _ mathcomp_ring). Qed.
  Lemma residuals_identity (a b A B p : R) :
    (a - b) * (B - A) = (a + b) * (A + B - (p + p)) + ((a * p - a * A - (b * B - b * p)) + (a * p - a * A - (b * B - b * p))).
  Proof. exact: (id_residuals _ _ _ _ _ _ mathcomp_ring). Qed.
  Lemma square_identity (A B p : R) : A - p + (- p + B) = A + B - (p + p).
  Proof. exact: (id_square _ _ _ _ _ _ mathcomp_ring). Qed.
  Lemma swap_identity (x y z w : R) : x - y - (z - w) = x - z - (y - w).
  Proof. exact: (id_swap _ _ _ _ _ _ mathcomp_ring). Qed.
  Lemma two_identity (x y : R) : x * x + x * y + x * y + (1 + 1) * (y * y) = (x + y) * (x + y) + y * y.
  Proof. exact: (id_two _ _ _ _ _ _ mathcomp_ring). Qed.
End Ring.
