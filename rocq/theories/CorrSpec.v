(** Vocabulary for covariances. *)
From Verif Require Import Base Beautify TransformTree RVec TransformR.
Open Scope R_scope.

(** The covariance of two lists of numbers: the mean of the products of the deviations
    from the means. *)
Definition covariance (a b : vec) : R := mean (zipw (fun u v => (u - mean a) * (v - mean b)) a b).

(** Entry of a matrix. *)
Definition entry (m : mat) (i j : nat) : R := nth j (nth i m []) 0.
