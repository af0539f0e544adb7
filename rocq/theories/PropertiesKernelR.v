(** Property theorems C33, C34, C35, C36, C88, C89: distances and distance kernels. *)
From Verif Require Import Base Beautify RVec RVecProofs KernelR KernelRSpec Psd KernelRProofs.
Open Scope R_scope.

(** * C33 *)

Theorem C33_similarity :
  forall (k : kern) (d : distance) (sigma : R), similarity k -> offered d -> 0 < sigma ->
  forall x y : vec, exists v, kvalue k d sigma x y = Ok (Fin v) /\ kvalue k d sigma y x = Ok (Fin v) /\
    0 <= v <= 1 /\ kvalue k d sigma x x = Ok (Fin 1).
Proof. exact similarity_measure. Qed.
Print Assumptions C33_similarity.

Theorem C33_decreasing :
  forall (k : kern) (d : distance) (sigma : R), similarity k -> offered d -> 0 < sigma ->
  forall (x y x' y' : vec) (r r' v v' : R), dist d x y = Ok r -> dist d x' y' = Ok r' -> r <= r' ->
    kvalue k d sigma x y = Ok (Fin v) -> kvalue k d sigma x' y' = Ok (Fin v') -> v' <= v.
Proof. exact decreasing_with_distance. Qed.
Print Assumptions C33_decreasing.

(** Negative bandwidths are accepted too, and there it is false. *)
Theorem C33_negative_bandwidth_refuted : kvalue Triangular Manhattan (-1) [0] [1] = Ok (Fin 2).
Proof. exact negative_bandwidth_not_similarity. Qed.
Print Assumptions C33_negative_bandwidth_refuted.

Example C33_nontrivial : similarity Tricube /\ offered Chebyshev /\ exists v, 0 < v < 1 /\
  kvalue Tricube Chebyshev 2 [1; 3] [2; 3] = Ok (Fin v).
Proof.
  split; [discriminate|]. split; [exact I|]. exists ((1 - (1 / 2) ^ 3) ^ 3). split; [cbn; lra|].
  rewrite kvalue_shape by (exact I || lra). cbn [dval absdiff zipw lmax fold_right].
  replace (Rabs (1 - 2)) with 1 by (rewrite Rabs_minus_sym; replace (2 - 1) with 1 by ring; now rewrite Rabs_R1).
  replace (Rabs (3 - 3)) with 0 by (rewrite Rminus_diag_eq, Rabs_R0; reflexivity).
  unfold Rmax. destruct (Rle_dec 0 1) as [_|N]; [|exfalso; lra]. cbn [shape].
  destruct (Rle_dec (1 / 2) 1) as [_|N]; [reflexivity|exfalso; lra].
Qed.

(** * C34 *)

Theorem C34_normalised_partial :
  forall (k : kern) (d : distance) (sigma : R), announced k [] = true -> similarity k -> offered d -> 0 < sigma ->
  forall x : vec, kvalue k d sigma x x = Ok (Fin 1).
Proof. exact announced_normalised. Qed.
Print Assumptions C34_normalised_partial.

(** Silverman's kernel announces itself as normalised and is not. *)
Theorem C34_silverman_refuted :
  announced Silverman [] = true /\
  forall (d : distance) (sigma : R) (x : vec), offered d -> 0 < sigma ->
    kvalue Silverman d sigma x x = Ok (Fin (1 / sqrt 2)).
Proof. exact silverman_not_normalised. Qed.
Print Assumptions C34_silverman_refuted.
Theorem C34_silverman_value : 1 / sqrt 2 < 1.
Proof. exact silverman_value_below_one. Qed.
Print Assumptions C34_silverman_value.

Example C34_nontrivial : announced Quartic [] = true /\ similarity Quartic /\ announced Logistic [] = false.
Proof. split; [reflexivity|]. split; [discriminate|reflexivity]. Qed.

(** * C35 *)

Theorem C35_support :
  forall (k : kern) (d : distance) (sigma : R), compact k -> offered d -> 0 < sigma ->
  forall (x y : vec) (r : R), dist d x y = Ok r -> exists v, kvalue k d sigma x y = Ok (Fin v) /\
    (sigma < r -> v = 0) /\ (r < sigma -> 0 < v) /\ (r = sigma -> v = match k with Uniform => 1 | _ => 0 end).
Proof. exact compact_support. Qed.
Print Assumptions C35_support.

Example C35_nontrivial : compact Triweight /\ offered Manhattan /\ exists r, dist Manhattan [0; 1] [2; 1] = Ok r /\ 1 < r < 3.
Proof.
  split; [exact I|]. split; [exact I|]. exists (Rabs (0 - 2) + (Rabs (1 - 1) + 0)). split; [reflexivity|].
  rewrite (Rabs_minus_sym 0 2), Rminus_0_r, (Rminus_diag_eq 1 1) by reflexivity. rewrite Rabs_R0, Rabs_right; lra.
Qed.

(** * C36 *)

Theorem C36_metric_partial :
  forall d : distance, offered d -> forall x y z : vec, length x = length y -> length y = length z ->
  exists xy yz xz, dist d x y = Ok xy /\ dist d y z = Ok yz /\ dist d x z = Ok xz /\
    dist d y x = Ok xy /\ 0 <= xy /\ (xy = 0 <-> x = y) /\ xz <= xy + yz.
Proof. exact distance_is_metric. Qed.
Print Assumptions C36_metric_partial.

Theorem C36_ordered :
  forall x y : vec, exists c e m, dist Chebyshev x y = Ok c /\ dist Euclidean x y = Ok e /\ dist Manhattan x y = Ok m /\
    c <= e <= m.
Proof. exact distances_ordered. Qed.
Print Assumptions C36_ordered.

(** The Minkowski distance can be selected but never evaluated. *)
Theorem C36_minkowski_refuted :
  forall p : R, select_distance "minkowski" (Some p) = Ok (Minkowski p) /\
    forall x y : vec, dist (Minkowski p) x y = Err EAttributeError.
Proof. intros p. split; [reflexivity|]. exact (minkowski_raises p). Qed.
Print Assumptions C36_minkowski_refuted.
Theorem C36_wasserstein_refuted : forall order, select_distance "wasserstein" order = Err ENotImplemented.
Proof. reflexivity. Qed.
Print Assumptions C36_wasserstein_refuted.

Example C36_nontrivial : offered Euclidean /\ dist Euclidean [0; 0] [3; 4] = Ok 5 /\ [0; 0] <> [3; 4].
Proof.
  split; [exact I|]. split; [|intros H; injection H; lra].
  cbn [dist]. f_equal. unfold square_dist. cbn [zipw sum fold_right].
  match goal with |- sqrt ?a = _ => replace a with (5 * 5) by ring end. apply sqrt_square. lra.
Qed.

(** * C88 *)

(** The default bandwidth is positive as soon as there are three different points. *)
Theorem C88_positive_partial :
  forall (d : distance) (s : mat) (dim : nat), offered d -> (3 <= length s)%nat -> NoDup s -> rect dim s ->
  exists sigma, heuristic d s = Ok sigma /\ 0 < sigma.
Proof. exact heuristic_positive. Qed.
Print Assumptions C88_positive_partial.

(** With one or two points it is zero, and the kernel of a point with itself is not
    a number. *)
Theorem C88_two_points_refuted :
  forall (d : distance) (s : mat), offered d -> (1 <= length s <= 2)%nat -> heuristic d s = Ok 0.
Proof. exact heuristic_small. Qed.
Print Assumptions C88_two_points_refuted.
Theorem C88_zero_bandwidth :
  forall (d : distance) (x : vec), offered d -> kvalue (Exponential true) d 0 x x = Ok NaN.
Proof. exact zero_bandwidth_nan. Qed.
Print Assumptions C88_zero_bandwidth.

Example C88_nontrivial : (3 <= length [[0]; [1]; [5]])%nat /\ NoDup [[0]; [1]; [5]] /\ rect 1 [[0]; [1]; [5]].
Proof.
  split; [cbn; lia|]. split; [|repeat constructor].
  assert (N : forall a b : R, a <> b -> [a] <> [b]) by (intros a b H E; injection E; exact H).
  repeat constructor; cbn; intros H; repeat (destruct H as [H|H]; [apply N in H; [exact H|lra]|]); exact H.
Qed.

(** * C89 *)

(** Every kernel matrix of the Gaussian kernel is positive semi-definite. *)
Theorem C89_rbf_psd :
  forall (sigma : R) (d : nat), sigma <> 0 ->
  exists f, (forall x y, rbf sigma x y = Ok (Fin (f x y))) /\ psd_on (fun x => length x = d) f.
Proof. exact rbf_psd. Qed.
Print Assumptions C89_rbf_psd.

Example C89_nontrivial :
  rbf 1 [0] [0] = Ok (Fin 1) /\ rbf 1 [0] [2] = Ok (Fin (exp (-2))) /\
  forall f, (forall x y, rbf 1 x y = Ok (Fin (f x y))) ->
    quadratic (matrix_of f [[0]; [2]]) [1; -1] = 2 - 2 * exp (-2).
Proof.
  assert (V : forall x y, rbf 1 [x] [y] = Ok (Fin (exp (- ((x - y) * (x - y) / 2))))).
  { intros x y. rewrite rbf_is by lra. unfold rbf_value, square_dist. cbn [zipw sum fold_right]. do 4 f_equal. field. }
  assert (E0 : forall x, exp (- ((x - x) * (x - x) / 2)) = 1) by (intros x; replace (- ((x - x) * (x - x) / 2)) with 0 by field; apply exp_0).
  assert (E1 : exp (- ((0 - 2) * (0 - 2) / 2)) = exp (-2)) by (f_equal; field).
  assert (E2 : exp (- ((2 - 0) * (2 - 0) / 2)) = exp (-2)) by (f_equal; field).
  split; [now rewrite V, E0|split; [now rewrite V, E1|]]. intros f Hf.
  assert (F : forall x y, f [x] [y] = exp (- ((x - y) * (x - y) / 2))).
  { intros x y. assert (H := Hf [x] [y]). rewrite V in H. now injection H as <-. }
  unfold quadratic, matrix_of, dot. cbn [map zipw sum fold_right]. rewrite !F, !E0, E1, E2. ring.
Qed.

(** * C94 *)

Theorem C94_documented_formulas :
  forall (k : kern) (d : distance) (sigma : R) (x y : vec) (r : R), length x = length y -> 0 < sigma ->
    is_distance d x y r -> kvalue k d sigma x y = Ok (Fin (documented_kernel k sigma r)).
Proof. exact documented_values. Qed.
Print Assumptions C94_documented_formulas.
(** Every pair of points has such a distance. *)
Theorem C94_distances_exist :
  forall (d : distance) (x y : vec), offered d -> x <> [] -> length x = length y -> exists r, is_distance d x y r.
Proof. exact distance_exists. Qed.
Print Assumptions C94_distances_exist.

Example C94_nontrivial : is_distance Euclidean [1; 3] [4; -1] 5 /\ documented_kernel Triangular 10 5 = 1 / 2.
Proof.
  split.
  - constructor; [lra|]. cbn. ring.
  - cbn. destruct (Rle_dec (5 / 10) 1) as [_|N]; [lra|exfalso; lra].
Qed.
