(** C222: very small and very large bandwidths. *)
From Coq Require Import Lra.
From Verif Require Import Base RVec KernelR KernelRSpec LipschitzSpec ExtremeSpec ExtremeProofs.
Open Scope R_scope.

(** Growing the bandwidth brings every value to the value at distance zero, at least as fast as the
    distance in bandwidths goes to zero. *)
Theorem C222_large : forall (k : kern) (d : distance) (sigma : R) (x y : vec) (r : R),
  continuous_kernel k -> offered d -> 0 < sigma -> dist d x y = Ok r ->
  exists v, kvalue k d sigma x y = Ok (Fin v) /\ Rabs (v - peak k) <= sensitivity k * (r / sigma).
Proof. exact large_value. Qed.
Print Assumptions C222_large.
(** The uniform kernel reaches it as soon as the bandwidth is the distance. *)
Theorem C222_large_uniform : forall (d : distance) (sigma : R) (x y : vec) (r : R),
  offered d -> 0 < sigma -> dist d x y = Ok r -> r <= sigma -> kvalue Uniform d sigma x y = Ok (Fin 1).
Proof. exact large_uniform. Qed.
Print Assumptions C222_large_uniform.
(** Shrinking the bandwidth brings every value of two distinct points to zero. *)
Theorem C222_small : forall (k : kern) (d : distance) (sigma : R) (x y : vec) (r : R),
  offered d -> 0 < sigma -> dist d x y = Ok r -> 0 < r ->
  exists v, kvalue k d sigma x y = Ok (Fin v) /\ Rabs v <= 4 * (sigma / r).
Proof. exact small_value. Qed.
Print Assumptions C222_small.
(** So the kernel matrix of a sample without repetition tends to a multiple of the identity ... *)
Theorem C222_matrix_small : forall (k : kern) (d : distance) (n : nat) (s : mat) (eps : R),
  offered d -> rect n s -> 0 < eps ->
  exists sigma0, 0 < sigma0 /\ forall sigma, 0 < sigma <= sigma0 -> forall x y, In x s -> In y s ->
    exists v, kvalue k d sigma x y = Ok (Fin v) /\ (x = y -> v = peak k) /\ (x <> y -> Rabs v <= eps).
Proof. exact matrix_small. Qed.
Print Assumptions C222_matrix_small.
(** ... and, the other way, to a constant matrix. *)
Theorem C222_matrix_large : forall (k : kern) (d : distance) (s : mat) (eps : R),
  offered d -> 0 < eps ->
  exists sigma0, 0 < sigma0 /\ forall sigma, sigma0 <= sigma -> forall x y, In x s -> In y s ->
    exists v, kvalue k d sigma x y = Ok (Fin v) /\ Rabs (v - peak k) <= eps.
Proof. exact matrix_large. Qed.
Print Assumptions C222_matrix_large.
(** A dual model with a small bandwidth predicts about zero away from its sample ... *)
Theorem C222_predictions_small : forall (k : kern) (d : distance) (sigma delta : R) (x : vec) (s : mat) (alpha : list R),
  offered d -> 0 < sigma -> 0 < delta -> Forall (fun y => exists r, dist d x y = Ok r /\ delta <= r) s ->
  length alpha = length s ->
  exists u, Forall2 (fun y b => kvalue k d sigma x y = Ok (Fin b)) s u /\
    Rabs (weighted alpha u) <= total alpha * (4 * (sigma / delta)).
Proof. exact prediction_small. Qed.
Print Assumptions C222_predictions_small.
(** ... and with a large one about the same everywhere. *)
Theorem C222_predictions_large : forall (k : kern) (d : distance) (sigma D : R) (x : vec) (s : mat) (alpha : list R),
  continuous_kernel k -> offered d -> 0 < sigma -> 0 <= D -> Forall (fun y => exists r, dist d x y = Ok r /\ r <= D) s ->
  length alpha = length s ->
  exists u, Forall2 (fun y b => kvalue k d sigma x y = Ok (Fin b)) s u /\
    Rabs (weighted alpha u - sum alpha * peak k) <= total alpha * (sensitivity k * (D / sigma)).
Proof. exact prediction_large. Qed.
Print Assumptions C222_predictions_large.

(** The points 0 and 1, at distance 1. *)
Example C222_nontrivial : offered Manhattan /\ continuous_kernel (Exponential true) /\ dist Manhattan [0] [1] = Ok 1 /\
  rect 1 [[0]; [1]] /\ In [0] [[0]; [1]] /\ In [1] [[0]; [1]] /\ [0] <> [1].
Proof.
  split; [exact I|]. split; [discriminate|]. split.
  { cbn. f_equal. unfold Rabs. destruct (Rcase_abs (0 - 1)); lra. }
  split; [repeat constructor|]. split; [now left|]. split; [right; now left|]. intros E. injection E. lra.
Qed.
