(** Property theorems C49: the features of the Nystrom kernel. *)
From mathcomp Require Import all_ssreflect all_algebra.
From Verif Require Import NystromM MatrixSpec NystromMProofs.
Set Implicit Arguments. Unset Strict Implicit. Unset Printing Implicit Defensive.
Import GRing.Theory Num.Theory.
Local Open Scope ring_scope.

(** Each eigenvalue left out counts: those not requested and those under the threshold.
    When they are all zero, the features give back the kernel matrix. *)
Theorem C49_sample_features :
  forall (R : rcfType) (n : nat) (K : 'M[R]_n) (s : 'rV[R]_n) (V : 'M[R]_n), eigendecomposition K s V ->
  forall (eps : R) (k : nat) (Hk : (k <= n)%N), 0 <= eps ->
    (forall j : 'I_n, (j < n - k)%N || (s 0 j < eps) -> s 0 j = 0) ->
    nystrom_sample eps Hk s V *m (nystrom_sample eps Hk s V)^T = K.
Proof. exact nystrom_exact. Qed.
Print Assumptions C49_sample_features.

(** In general each entry is off by at most the largest of them. *)
Theorem C49_sample_features_error :
  forall (R : rcfType) (n : nat) (K : 'M[R]_n) (s : 'rV[R]_n) (V : 'M[R]_n), eigendecomposition K s V ->
  forall (eps beta : R) (k : nat) (Hk : (k <= n)%N), 0 <= eps -> 0 <= beta ->
    (forall j : 'I_n, (j < n - k)%N || (s 0 j < eps) -> `|s 0 j| <= beta) ->
    forall a b : 'I_n, `|K a b - (nystrom_sample eps Hk s V *m (nystrom_sample eps Hk s V)^T) a b| <= beta.
Proof. exact nystrom_error. Qed.
Print Assumptions C49_sample_features_error.

(** The features of the sample points do not depend on the way they are asked for. *)
Theorem C49_out_of_sample :
  forall (R : rcfType) (n : nat) (K : 'M[R]_n) (s : 'rV[R]_n) (V : 'M[R]_n), eigendecomposition K s V ->
  forall (eps : R) (k : nat) (Hk : (k <= n)%N), 0 < eps -> nystrom_oos eps Hk s V K = nystrom_sample eps Hk s V.
Proof. exact nystrom_consistent. Qed.
Print Assumptions C49_out_of_sample.

(** When nothing is left out, kernel values with the sample are those of the base kernel. *)
Theorem C49_kernel_with_sample :
  forall (R : rcfType) (n : nat) (K : 'M[R]_n) (s : 'rV[R]_n) (V : 'M[R]_n), eigendecomposition K s V ->
  forall (eps : R) (k : nat) (Hk : (k <= n)%N) (m : nat) (Kx : 'M[R]_(m, n)), 0 < eps ->
    (forall j : 'I_n, ~~ ((j < n - k)%N || (s 0 j < eps))) ->
    nystrom_oos eps Hk s V Kx *m (nystrom_sample eps Hk s V)^T = Kx.
Proof. exact nystrom_oos_exact. Qed.
Print Assumptions C49_kernel_with_sample.

(** As quadratic forms, the Nystrom kernel is between zero and its base kernel. *)
Theorem C49_below_base :
  forall (R : rcfType) (n : nat) (K : 'M[R]_n) (s : 'rV[R]_n) (V : 'M[R]_n), eigendecomposition K s V ->
  forall (eps : R) (k : nat) (Hk : (k <= n)%N), 0 <= eps -> psd K ->
  forall c, 0 <= qform (nystrom_sample eps Hk s V *m (nystrom_sample eps Hk s V)^T) c <= qform K c.
Proof. exact nystrom_below. Qed.
Print Assumptions C49_below_base.

(** A kernel matrix with a negative eigenvalue is never given back. *)
Theorem C49_indefinite_refuted :
  forall (R : rcfType) (n : nat) (K : 'M[R]_n) (s : 'rV[R]_n) (V : 'M[R]_n), eigendecomposition K s V ->
  forall (eps : R) (k : nat) (Hk : (k <= n)%N) (j : 'I_n), 0 <= eps -> s 0 j < 0 ->
    nystrom_sample eps Hk s V *m (nystrom_sample eps Hk s V)^T <> K.
Proof. exact nystrom_indefinite. Qed.
Print Assumptions C49_indefinite_refuted.

Example C49_nontrivial (R : rcfType) :
  exists (K : 'M[R]_2) (s : 'rV[R]_2) (V : 'M[R]_2) (eps : R), eigendecomposition K s V /\ 0 < eps /\
    (forall j : 'I_2, (j < 2 - 2)%N || (s 0 j < eps) -> s 0 j = 0) /\ (exists j, s 0 j = 1) /\ (exists j, s 0 j < eps).
Proof.
exists (diag_mx (ex_values R)), (ex_values R), 1%:M, (1 / 2%:R).
split; first exact: ex_decomposition. split; first exact: ex_positive. split; first exact: ex_left_out.
split; first by exists (lift ord0 ord0); rewrite mxE.
exists ord0. rewrite mxE; exact: ex_positive.
Qed.
