(** The iterative method: examples. *)
From mathcomp Require Import all_ssreflect all_algebra.
From Verif Require Import LssvmM IterativeM IterativeSpec IterativeProofs.
Set Implicit Arguments. Unset Strict Implicit. Unset Printing Implicit Defensive.
Import GRing.Theory Num.Theory Order.POrderTheory Order.TotalTheory.
Local Open Scope ring_scope.

Section Examples.
  Variable R : rcfType.
  (** The default rate, with the one-dimensional sample 1 and then 40. *)
  Lemma small_sample : (10%:R ^- 3 : R) * curvature 1 (1%:M : 'M[R]_1) <= 1.
  Proof.
    rewrite one_curvature expr1n mulr1 mulrC ler_pdivr_mulr ?exprn_gt0 ?ltr0n // mul1r -natrX ler_nat. by [].
  Qed.
  Lemma large_sample : 2%:R < (10%:R ^- 3 : R) * curvature 1 ((40%:R)%:M : 'M[R]_1).
  Proof.
    rewrite one_curvature mulrC ltr_pdivl_mulr ?exprn_gt0 ?ltr0n // -!natrX -!natrM ltr_nat. by [].
  Qed.
  (** The image of the point 2, starting from the point of the sample. *)
  Lemma large_error : linear_obj ((40%:R)%:M : 'M[R]_1) ((80%:R)%:M : 'M[R]_1) (40%:R)%:M != 0.
  Proof.
    rewrite one_obj sqrf_eq0 subr_eq0 mxE eqxx mulr1n -natrM eqr_nat. by [].
  Qed.
End Examples.
