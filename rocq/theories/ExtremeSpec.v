(** Vocabulary for very small and very large bandwidths. *)
From Verif Require Import Base RVec KernelR.
Open Scope R_scope.

(** The value of a kernel at distance zero. *)
Definition peak (k : kern) : R := match k with Silverman => sqrt (1 / 2) | _ => 1 end.

(** The squared or plain distance that an exponential kernel reads, over its scale. *)
Definition exponent (squared : bool) (sigma r : R) : R :=
  if squared then r ^ 2 / (2 * sigma ^ 2) else r / (sqrt 2 * sigma).
