(** C223: smoothing with very small and very large bandwidths. *)
From Coq Require Import Lra Lia.
From Verif Require Import Base RVec KernelR KernelRSpec Method ExtremeSpec ExtremeSmooth ExtremeTies.
Open Scope R_scope.

(** Shrinking the bandwidth of a Gaussian or Laplacian kernel, with whatever distance: when the
    sample [i] is nearer to [x] than all others, the smoothed value tends to the observation [i]. *)
Theorem C223_nearest : forall (topk : vec -> nat -> list nat) (squared : bool) (d : distance) (x : vec) (s obs : mat) (q i : nat),
  offered d -> length obs = length s -> rect q obs -> (i < length s)%nat ->
  (forall j, (j < length s)%nat -> j <> i ->
     exists ri rj, dist d x (nth i s []) = Ok ri /\ dist d x (nth j s []) = Ok rj /\ ri < rj) ->
  forall eps, 0 < eps -> exists sigma0, 0 < sigma0 /\ forall sigma, 0 < sigma <= sigma0 ->
    exists u out, Forall2 (fun y v => kvalue (Exponential squared) d sigma x y = Ok (Fin v)) s u /\
      smoother topk (length s) [u] obs None = Ok [Some out] /\ length out = q /\
      forall c, (c < q)%nat -> Rabs (nth c out 0 - nth c (nth i obs []) 0) <= eps.
Proof. exact smoothing_nearest. Qed.
Print Assumptions C223_nearest.

(** In general several samples may be the nearest ones: the smoothed value tends to the mean of their
    observations. *)
Theorem C223_ties : forall (topk : vec -> nat -> list nat) (squared : bool) (d : distance) (x : vec) (s obs : mat) (q : nat)
    (nearest : nat -> bool),
  offered d -> s <> [] -> length obs = length s -> rect q obs ->
  (forall j, (j < length s)%nat -> (nearest j = true <-> forall l, (l < length s)%nat ->
     exists rj rl, dist d x (nth j s []) = Ok rj /\ dist d x (nth l s []) = Ok rl /\ rj <= rl)) ->
  forall eps, 0 < eps -> exists sigma0, 0 < sigma0 /\ forall sigma, 0 < sigma <= sigma0 ->
    exists u out, Forall2 (fun y v => kvalue (Exponential squared) d sigma x y = Ok (Fin v)) s u /\
      smoother topk (length s) [u] obs None = Ok [Some out] /\ length out = q /\
      forall c, (c < q)%nat ->
        Rabs (nth c out 0 - mean (map (fun j => nth c (nth j obs []) 0) (filter nearest (seq 0 (length s))))) <= eps.
Proof. exact smoothing_ties. Qed.
Print Assumptions C223_ties.

(** Growing the bandwidth of any kernel: the smoothed value tends to the mean of the observations. *)
Theorem C223_mean : forall (topk : vec -> nat -> list nat) (k : kern) (d : distance) (x : vec) (s obs : mat) (q : nat),
  offered d -> s <> [] -> length obs = length s -> rect q obs ->
  forall eps, 0 < eps -> exists sigma0, 0 < sigma0 /\ forall sigma, sigma0 <= sigma ->
    exists u out, Forall2 (fun y v => kvalue k d sigma x y = Ok (Fin v)) s u /\
      smoother topk (length s) [u] obs None = Ok [Some out] /\ length out = q /\
      forall c, (c < q)%nat -> Rabs (nth c out 0 - mean (column c obs)) <= eps.
Proof. exact smoothing_mean. Qed.
Print Assumptions C223_mean.

(** The point 0 is nearer to the first of the samples 1 and 3. *)
Example C223_nontrivial : let s := [[1]; [3]] in let obs := [[5]; [7]] in
  offered Manhattan /\ length obs = length s /\ rect 1 obs /\ (0 < length s)%nat /\
  (forall j, (j < length s)%nat -> j <> 0%nat ->
     exists ri rj, dist Manhattan [0] (nth 0 s []) = Ok ri /\ dist Manhattan [0] (nth j s []) = Ok rj /\ ri < rj).
Proof.
  cbv zeta. split; [exact I|]. split; [reflexivity|]. split; [repeat constructor|]. split; [cbn; auto|].
  intros [|[|j]] Hj Nj; [now elim Nj| |cbn in Hj; lia].
  do 2 eexists. split; [reflexivity|]. split; [reflexivity|]. cbn. unfold Rabs.
  destruct (Rcase_abs (0 - 1)), (Rcase_abs (0 - 3)); lra.
Qed.

(** The point 0 is as near to the sample 1 as to -1, and further from 3. *)
Example C223_nontrivial_ties : let s := [[1]; [-1]; [3]] in let nearest := fun j => Nat.leb j 1 in
  offered Manhattan /\ s <> [] /\
  (forall j, (j < length s)%nat -> (nearest j = true <-> forall l, (l < length s)%nat ->
     exists rj rl, dist Manhattan [0] (nth j s []) = Ok rj /\ dist Manhattan [0] (nth l s []) = Ok rl /\ rj <= rl)) /\
  filter nearest (seq 0 (length s)) = [0; 1]%nat.
Proof.
  cbv zeta. split; [exact I|]. split; [discriminate|]. split; [|reflexivity].
  assert (A1 : Rabs (0 - 1) = 1) by (unfold Rabs; destruct (Rcase_abs (0 - 1)); lra).
  assert (A2 : Rabs (0 - -1) = 1) by (unfold Rabs; destruct (Rcase_abs (0 - -1)); lra).
  assert (A3 : Rabs (0 - 3) = 3) by (unfold Rabs; destruct (Rcase_abs (0 - 3)); lra).
  intros j Hj. cbn [length] in *. split.
  - intros T l Hl. apply Nat.leb_le in T. destruct j as [|[|j]]; [| |lia]; destruct l as [|[|[|l]]]; try lia;
      (do 2 eexists; split; [reflexivity|]; split; [reflexivity|]; cbn; rewrite ?A1, ?A2, ?A3; lra).
  - intros H. destruct j as [|[|[|j]]]; [reflexivity|reflexivity| |lia].
    destruct (H 0%nat ltac:(lia)) as (a & b & E1 & E2 & L). exfalso. cbn in E1, E2. rewrite A3 in E1. rewrite A1 in E2.
    injection E1 as <-. injection E2 as <-. lra.
Qed.
