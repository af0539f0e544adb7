(** Smoothing with every point (C213). *)
From Verif Require Import Base RVec RVecProofs KernelR KernelRSpec KernelRProofs Method KernelMethod SmoothSpec SmoothProofs.
Open Scope R_scope.

(** The smoothed values exist; their mean, weighted by the total similarity of each point, is that of
    the observations; their spread around any value is less, by the distances between each smoothed
    value and the observations it was made of. *)
Theorem C213_mean_and_spread :
  forall topk k domain observations d, similar_on k domain -> rect d observations -> length observations = length domain -> domain <> [] ->
  exists m, kernel_smoother topk k domain observations None = Ok (map Some m) /\ length m = length domain /\ rect d m /\
    forall j, (j < d)%nat ->
      weighted k domain (fun i => entry m i j) = weighted k domain (fun i => entry observations i j) /\
      (forall c, spread k domain m j c <= spread k domain observations j c) /\
      (forall c, spread k domain observations j c = spread k domain m j c +
         sum (map (fun i => sum (map (fun l => k (nth i domain []) (nth l domain []) * (entry observations l j - entry m i j) ^ 2)
                                     (seq 0 (length domain)))) (seq 0 (length domain)))).
Proof.
  intros topk k domain observations d S Ro Ln ne. exists (smooth_matrix k domain observations d).
  split; [exact (smoother_rows topk k domain observations d S Ro Ln ne)|].
  destruct (smooth_shape k domain observations d) as [A B]. split; [exact A|]. split; [exact B|]. intros j Hj.
  split; [exact (smooth_mean k domain observations d S Ln j Hj)|]. split; intro c.
  - exact (smooth_spread_le k domain observations d S Ln j c Hj).
  - exact (smooth_spread k domain observations d S Ln j c Hj).
Qed.
Print Assumptions C213_mean_and_spread.
(** With a kernel that is positive everywhere, the spread stays the same only for constants. *)
Theorem C213_only_constants :
  forall topk k domain observations d m j c, similar_on k domain -> rect d observations -> length observations = length domain -> domain <> [] ->
  (forall x y, In x domain -> In y domain -> 0 < k x y) ->
  kernel_smoother topk k domain observations None = Ok (map Some m) -> (j < d)%nat ->
  (spread k domain m j c = spread k domain observations j c <->
   forall i l, (i < length domain)%nat -> (l < length domain)%nat -> entry observations i j = entry observations l j).
Proof.
  intros topk k domain observations d m j c S Ro Ln ne P E Hj.
  rewrite (smoother_rows topk k domain observations d S Ro Ln ne) in E. injection E as E.
  assert (M : smooth_matrix k domain observations d = m).
  { apply (f_equal (map (fun o => match o with Some v => v | None => [] end))) in E. rewrite !map_map in E. rewrite !map_id in E. exact E. }
  rewrite <- M. exact (smooth_spread_eq k domain observations d S Ln j c Hj P).
Qed.
Print Assumptions C213_only_constants.
(** With a positive semi-definite kernel smoothing never reverses: observations and smoothed values
    go together around every value. *)
Theorem C213_never_reverses :
  forall topk k domain observations d m j c, similar_on k domain -> rect d observations -> length observations = length domain -> domain <> [] ->
  psd_on (fun x => In x domain) k ->
  kernel_smoother topk k domain observations None = Ok (map Some m) -> (j < d)%nat ->
  0 <= weighted k domain (fun i => (entry observations i j - c) * (entry m i j - c)).
Proof.
  intros topk k domain observations d m j c S Ro Ln ne P E Hj.
  rewrite (smoother_rows topk k domain observations d S Ro Ln ne) in E. injection E as E.
  assert (M : smooth_matrix k domain observations d = m).
  { apply (f_equal (map (fun o => match o with Some v => v | None => [] end))) in E. rewrite !map_map in E. rewrite !map_id in E. exact E. }
  rewrite <- M. exact (smooth_sign k domain observations d S Ln j c Hj P).
Qed.
Print Assumptions C213_never_reverses.
(** All distance kernels but one are such similarities. *)
Theorem C213_distance_kernels :
  forall kn ds sigma k domain, similarity kn -> offered ds -> 0 < sigma ->
  (forall x y, kvalue kn ds sigma x y = Ok (Fin (k x y))) -> similar_on k domain.
Proof.
  intros kn ds sigma k domain Sk O P V x y _ _. destruct (similarity_measure kn ds sigma Sk O P x y) as [v [A [B [C D]]]].
  rewrite V in A, B, D. injection A as A. injection B as B. injection D as D. rewrite A, B, D. repeat split; lra.
Qed.
Print Assumptions C213_distance_kernels.
Example C213_nontrivial :
  let k := fun x y : vec => exp (- Rabs (nth 0 x 0 - nth 0 y 0)) in
  similar_on k [[0]; [1]] /\ rect 1 [[0]; [2]] /\ (forall x y, In x [[0]; [1]] -> In y [[0]; [1]] -> 0 < k x y) /\
  entry [[0]; [2]] 0 0 <> entry [[0]; [2]] 1 0 /\
  exists k', (forall x y, rbf 1 x y = Ok (Fin (k' x y))) /\ psd_on (fun x => length x = 1%nat) k'.
Proof.
  cbv zeta. split.
  { intros x y _ _. split; [now rewrite Rabs_minus_sym|]. split; [left; apply exp_pos | apply exp_pos]. }
  split; [repeat constructor|]. split; [intros; apply exp_pos|]. split; [cbn; lra|].
  apply rbf_psd. lra.
Qed.
