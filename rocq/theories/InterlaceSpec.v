(** Vocabulary for components. *)
From mathcomp Require Import all_ssreflect all_algebra.
From Verif Require Import NystromM.
Set Implicit Arguments. Unset Strict Implicit. Unset Printing Implicit Defensive.

(** The ranks of the components that are kept out of [k] with the eigenvalues [s] and the
    threshold [eps], from zero. *)
Definition component (R : Num.RealClosedField.type) n (eps : R) k (Hk : (k <= n)%N) (s : 'rV[R]_n) := 'I_(nystrom_dim eps (eigs_values Hk s)).
