(** Property theorems C207: where iterative pre-images start. *)
From Verif Require Import Base RVec RVecProofs KernelR KernelRSpec KernelRProofs Method MethodSpec MethodProofs Preimage PreimageSpec PreimageProofs
  StartSpec StartProofs.
Open Scope R_scope.

(** * C207 *)

(** From kernel values, the result is that of the iterations started, for each row, at a point of
    the sample with the largest value; ties may be broken in any way. *)
Theorem C207_kernel_values :
  forall topk, selects_largest topk -> forall step stop sample d, rect d sample -> sample <> [] ->
  forall level light k_image num_iter, rect (length sample) k_image -> k_image <> [] -> (0 < num_iter)%Z ->
    exists x0, starts_at sample k_image x0 /\
      fst (preimage_k topk step stop sample level light (length sample) k_image num_iter) = iterate step stop 0 (Z.to_nat num_iter) x0.
Proof. exact start_k. Qed.
Print Assumptions C207_kernel_values.
(** From features, at a point whose features have the largest inner product, wherever features are
    accepted at all. *)
Theorem C207_features :
  forall topk, selects_largest topk -> forall step stop sample d, rect d sample -> sample <> [] ->
  forall level light phi phi_image num_iter, length phi = length sample -> phi_image <> [] -> (0 < num_iter)%Z ->
    exists x0, starts_at sample (gram phi_image phi) x0 /\
      fst (preimage_phi topk step stop sample phi (length sample) level light (length sample) phi_image num_iter) =
      iterate step stop 0 (Z.to_nat num_iter) x0.
Proof. exact start_phi. Qed.
Print Assumptions C207_features.
(** The kernel values of points of the sample: the iterations start at these points, so that a
    descent that does not move from an exact solution gives them back. *)
Theorem C207_own_points :
  forall topk, selects_largest topk -> forall step stop k dist sigma dim sample xs m level light num_iter,
    k <> Uniform -> offered dist -> 0 < sigma -> rect dim sample ->
    Forall (fun x => In x sample) xs -> xs <> [] -> kernel_values k dist sigma xs sample m -> (0 < num_iter)%Z ->
    fst (preimage_k topk step stop sample level light (length sample) m num_iter) = iterate step stop 0 (Z.to_nat num_iter) xs /\
    ((forall i, step i xs = Ok xs) -> fst (preimage_k topk step stop sample level light (length sample) m num_iter) = Ok xs).
Proof.
  intros topk Ht step stop k dist sigma dim sample xs m level light num_iter Hk Ho Hs Rs Hx Nx V Hn.
  pose proof (own_k topk Ht step stop k dist sigma dim sample xs m level light num_iter Hk Ho Hs Rs Hx Nx V Hn) as E.
  split; [exact E|]. intros Hf. rewrite E. now apply iterate_fixed.
Qed.
Print Assumptions C207_own_points.
Example C207_nontrivial :
  selects_largest first_largest /\ rect 1 [[1]; [2]] /\ rect 2 [[3; 5]; [7; 4]] /\
  starts_at [[1]; [2]] [[3; 5]; [7; 4]] [[2]; [1]] /\
  (Exponential true <> Uniform) /\ offered Euclidean /\ Forall (fun x => In x [[1; 2]; [3; 4]]) [[3; 4]; [1; 2]; [3; 4]] /\
  exists m, kernel_values (Exponential true) Euclidean 1 [[3; 4]] [[1; 2]; [3; 4]] m.
Proof.
  split; [exact first_largest_ok|]. split; [repeat constructor|]. split; [repeat constructor|].
  split.
  { split; [reflexivity|]. intros [|[|r]] Hr; cbn in Hr; try lia.
    - exists 1%nat. split; [cbn; lia|]. split; [reflexivity|]. intros [|[|b]] Hb; cbn in Hb |- *; try lia; lra.
    - exists 0%nat. split; [cbn; lia|]. split; [reflexivity|]. intros [|[|b]] Hb; cbn in Hb |- *; try lia; lra. }
  split; [discriminate|]. split; [exact I|]. split; [repeat (constructor; [cbn; tauto|]); constructor|].
  eexists. constructor; [|constructor].
  constructor; [apply kvalue_shape; [exact I|lra]|]. constructor; [apply kvalue_shape; [exact I|lra]|]. constructor.
Qed.
