(** Distance kernels change continuously with the data and with the bandwidth (C168). *)
From Coq Require Import Lra.
From Verif Require Import Base RVec KernelR KernelRSpec LipschitzSpec LipschitzProofs.
Open Scope R_scope.

(** Moving both points by [rx] and [ry] changes no value by more than the sensitivity of the kernel
    times [rx + ry], in bandwidths. *)
Theorem C168_data : forall (k : kern) (d : distance) (sigma : R) (x x' y y' : vec),
  continuous_kernel k -> offered d -> 0 < sigma -> length x = length x' -> length x' = length y -> length y = length y' ->
  exists v v' rx ry, kvalue k d sigma x y = Ok (Fin v) /\ kvalue k d sigma x' y' = Ok (Fin v') /\
    dist d x x' = Ok rx /\ dist d y y' = Ok ry /\ Rabs (v - v') <= sensitivity k * ((rx + ry) / sigma).
Proof. exact kernel_continuous. Qed.
Print Assumptions C168_data.
(** Changing the bandwidth changes no value, at whatever distance, by more than a constant times the
    relative change. *)
Theorem C168_bandwidth : forall (k : kern) (d : distance) (sigma sigma' : R) (x y : vec),
  continuous_kernel k -> offered d -> 0 < sigma -> 0 < sigma' ->
  exists v v', kvalue k d sigma x y = Ok (Fin v) /\ kvalue k d sigma' x y = Ok (Fin v') /\
    Rabs (v - v') <= bandwidth_sensitivity k * (Rabs (sigma - sigma') / Rmin sigma sigma').
Proof. exact bandwidth_continuous. Qed.
Print Assumptions C168_bandwidth.
(** So the prediction of a dual model, a weighted sum of the kernel values with its sample, is
    continuous in the input. *)
Theorem C168_predictions : forall (k : kern) (d : distance) (sigma : R) (x x' : vec) (s : mat) (alpha : list R),
  continuous_kernel k -> offered d -> 0 < sigma -> length x = length x' ->
  Forall (fun y => length y = length x) s -> length alpha = length s ->
  exists u v r, Forall2 (fun y b => kvalue k d sigma x y = Ok (Fin b)) s u /\
    Forall2 (fun y b => kvalue k d sigma x' y = Ok (Fin b)) s v /\
    dist d x x' = Ok r /\ Rabs (weighted alpha u - weighted alpha v) <= total alpha * (sensitivity k * (r / sigma)).
Proof. exact model_continuous. Qed.
Print Assumptions C168_predictions.
(** The uniform kernel alone jumps, and only where the distance is the bandwidth. *)
Theorem C168_uniform_jumps : forall (d : distance) (sigma eps : R), offered d -> 0 < sigma -> 0 < eps ->
  exists x x' y r, length x = length y /\ length x' = length y /\ dist d x x' = Ok r /\ r <= eps /\
    kvalue Uniform d sigma x y = Ok (Fin 1) /\ kvalue Uniform d sigma x' y = Ok (Fin 0).
Proof. exact uniform_jumps. Qed.
Print Assumptions C168_uniform_jumps.
Theorem C168_uniform_steady : forall (d : distance) (sigma : R) (x x' y : vec) (r r' : R),
  offered d -> 0 < sigma -> length x = length x' -> length x' = length y ->
  dist d x y = Ok r -> dist d x x' = Ok r' -> r' < Rabs (r - sigma) ->
  kvalue Uniform d sigma x' y = kvalue Uniform d sigma x y.
Proof. exact uniform_steady. Qed.
Print Assumptions C168_uniform_steady.
Example C168_nontrivial :
  continuous_kernel Tricube /\ offered Manhattan /\ dist Manhattan [1; 2] [1; 3] = Ok 1 /\
  Forall (fun y : vec => length y = 2%nat) [[0; 0]; [1; 5]] /\ sensitivity Tricube = 9 /\ total [1; -2] = 3.
Proof.
  split; [discriminate |]. split; [exact I |]. split.
  - cbn. f_equal. replace (1 - 1) with 0 by ring. rewrite Rabs_R0. replace (2 - 3) with (- (1)) by ring.
    rewrite Rabs_Ropp, Rabs_R1. ring.
  - split; [repeat constructor |]. split; [reflexivity |]. unfold total. cbn. rewrite Rabs_R1, (Rabs_left (-2)) by lra. ring.
Qed.
