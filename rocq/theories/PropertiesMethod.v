(** Property theorems C50, C51, C52, C104, C105, C106: pre-images. *)
From Verif Require Import Base RVec RVecProofs KernelR KernelRSpec KernelRProofs Method MethodSpec MethodProofs Sample Preimage PreimageSpec PreimageProofs.
Open Scope R_scope.

(** * C50 *)

(** Each row of the result is the mean of [num] distinct observations whose distances are
    no larger than any other. *)
Theorem C50_nearest :
  forall topk, selects_largest topk -> forall d cols dists observations num, rect d observations -> rect cols dists -> dists <> [] ->
    cols = length observations -> (1 <= num <= Z.of_nat cols)%Z ->
    exists out, knn topk cols dists observations num = Ok out /\ length out = length dists /\
    forall r, (r < length dists)%nat -> length (nth r out []) = d /\
      exists idx, nearest (nth r dists []) (Z.to_nat num) idx /\
        forall j, (j < d)%nat -> nth j (nth r out []) 0 = mean_at observations idx j.
Proof. exact knn_mean. Qed.
Print Assumptions C50_nearest.

Theorem C50_range :
  forall topk, selects_largest topk -> forall d cols dists observations num out, rect d observations -> rect cols dists -> dists <> [] ->
    cols = length observations -> knn topk cols dists observations num = Ok out ->
    forall r j, (r < length dists)%nat -> (j < d)%nat ->
      lmin (column j observations) <= nth j (nth r out []) 0 <= lmax (column j observations).
Proof. exact knn_range. Qed.
Print Assumptions C50_range.

Theorem C50_constant :
  forall row c k idx, nearest (map (fun v => v + c) row) k idx <-> nearest row k idx.
Proof. exact nearest_shift. Qed.
Print Assumptions C50_constant.

(** When the call is accepted. *)
Theorem C50_accepted :
  forall topk cols dists observations num,
    is_ok (knn topk cols dists observations num) = true <->
    cols = length observations /\ (1 <= num <= Z.of_nat cols)%Z /\ dists <> [].
Proof. exact knn_rejects. Qed.
Print Assumptions C50_accepted.

Example C50_nontrivial :
  selects_largest first_largest /\ rect 1 [[1]; [2]] /\ rect 2 [[3; 5]; [0; 7]] /\ (1 <= 2 <= Z.of_nat 2)%Z /\
  knn first_largest 2 (map (map Ropp) (gram [[1]; [2]] [[1]; [2]])) [[1]; [2]] 1 = Ok [[2]; [2]].
Proof.
  split; [exact first_largest_ok|]. split; [repeat constructor|]. split; [repeat constructor|]. split; [lia|].
  exact (knn_linear_wrong first_largest first_largest_ok).
Qed.

(** * C51 *)

(** A row of non-negative coefficients, not all zero, gives a convex combination of the
    observations: weights proportional to the coefficients, zero outside the [num]
    largest. *)
Theorem C51_convex_partial :
  forall topk, selects_largest topk -> forall d cols coefficients observations num, rect d observations -> rect cols coefficients ->
    cols = length observations -> (1 <= num <= Z.of_nat cols)%Z ->
    exists out, smoother topk cols coefficients observations (Some num) = Ok out /\ length out = length coefficients /\
    forall r, (r < length coefficients)%nat -> let row := nth r coefficients [] in
      Forall (fun v => 0 <= v) row -> Exists (fun v => 0 < v) row ->
      exists w v, nth r out None = Some v /\ length v = d /\ convex cols w /\
        (exists idx, largest row (Z.to_nat num) idx /\ forall i, (i < cols)%nat -> ~ In i idx -> nth i w 0 = 0) /\
        (exists s, 0 < s /\ forall i, (i < cols)%nat -> nth i w 0 <> 0 -> nth i w 0 = nth i row 0 / s) /\
        forall j, (j < d)%nat -> nth j v 0 = dot w (column j observations).
Proof. exact smoother_convex. Qed.
Print Assumptions C51_convex_partial.

(** Convex combinations stay in the range and reproduce constants. *)
Theorem C51_range :
  forall w observations j, convex (length observations) w -> observations <> [] ->
    lmin (column j observations) <= dot w (column j observations) <= lmax (column j observations).
Proof. exact convex_range. Qed.
Print Assumptions C51_range.
Theorem C51_constants :
  forall w observations j c, convex (length observations) w -> Forall (fun v => v = c) (column j observations) ->
    dot w (column j observations) = c.
Proof. exact convex_constant. Qed.
Print Assumptions C51_constants.

(** A row of zeros has no result. *)
Theorem C51_zero_row_refuted :
  forall topk cols coefficients observations num out r, smoother topk cols coefficients observations num = Ok out ->
    (r < length coefficients)%nat -> Forall (fun v => v = 0) (nth r coefficients []) -> nth r out None = None.
Proof. exact smoother_zero. Qed.
Print Assumptions C51_zero_row_refuted.

(** Smoothing with a similarity kernel is defined at every point. *)
Theorem C51_kernel_smoother :
  forall topk, selects_largest topk -> forall k d sigma dim domain observations m num, similarity k -> offered d -> 0 < sigma ->
    rect dim observations -> length observations = length domain -> kernel_values k d sigma domain domain m ->
    (1 <= num <= Z.of_nat (length domain))%Z ->
    exists out, smoother topk (length domain) m observations (Some num) = Ok out /\ length out = length domain /\
      Forall (fun o => exists v, o = Some v) out.
Proof. exact kernel_smoother_defined. Qed.
Print Assumptions C51_kernel_smoother.

Example C51_nontrivial :
  rect 2 [[1; 2]; [3; 4]; [5; 6]] /\ Forall (fun v => 0 <= v) [1; 0; 2] /\ Exists (fun v => 0 < v) [1; 0; 2] /\
  convex 3 [1 / 4; 0; 3 / 4] /\
  exists out, smoother first_largest 3 [[0; 0; 0]] [[1]; [2]; [3]] (Some 2%Z) = Ok out /\ nth 0 out None = None.
Proof.
  split; [repeat constructor|]. split; [repeat constructor; lra|]. split; [left; lra|].
  split; [split; [reflexivity|split; [repeat constructor; lra|unfold sum; cbn; lra]]|].
  eexists. split; [reflexivity|]. apply (smoother_zero first_largest 3 [[0; 0; 0]] [[1]; [2]; [3]] (Some 2%Z)); [reflexivity|cbn; lia|].
  repeat constructor.
Qed.

(** * C52 *)

(** The cache level is what it was after a success, and after anything when the cache is
    not lowered. *)
Theorem C52_success_partial :
  forall topk step stop sample level light cols k_image num_iter r level',
    preimage_k topk step stop sample level light cols k_image num_iter = (r, level') ->
    (is_ok r = true -> level' = level) /\
    (is_ok r = false -> level' = lowered light level).
Proof. exact preimage_k_level. Qed.
Print Assumptions C52_success_partial.
Theorem C52_success_explicit_partial :
  forall topk step stop sample phi df level light cols phi_image num_iter r level',
    preimage_phi topk step stop sample phi df level light cols phi_image num_iter = (r, level') ->
    (is_ok r = true -> level' = level) /\
    (is_ok r = false -> level' = lowered light level).
Proof. exact preimage_phi_level. Qed.
Print Assumptions C52_success_explicit_partial.

(** After any failure the default leaves a level above light at light. *)
Theorem C52_failure_refuted :
  forall topk step stop sample level cols k_image num_iter, (1 < level)%nat -> cols <> length sample ->
    preimage_k topk step stop sample level true cols k_image num_iter = (Err EAssertionError, 1%nat) /\ level <> 1%nat.
Proof.
  intros topk step stop sample level cols k_image num_iter H N. split; [|lia]. unfold preimage_k, lowered.
  rewrite (proj2 (Nat.eqb_neq _ _) N), (proj2 (Nat.ltb_lt _ _) H). reflexivity.
Qed.
Print Assumptions C52_failure_refuted.

Example C52_nontrivial :
  exists x, preimage_k first_largest (fun _ x => Ok x) (fun _ => false) [[1]; [2]] 2 true 2 [[1; 0]] 3 = (Ok x, 2%nat) /\
  preimage_k first_largest (fun _ x => Err ERuntimeError) (fun _ => false) [[1]; [2]] 2 true 2 [[1; 0]] 3 = (Err ERuntimeError, 1%nat).
Proof. eexists. split; reflexivity. Qed.

(** * C104 *)

Theorem C104_own_points_partial :
  forall topk, selects_largest topk -> forall k d sigma dim sample xs m, k <> Uniform -> offered d -> 0 < sigma -> rect dim sample ->
    Forall (fun x => In x sample) xs -> xs <> [] -> kernel_values k d sigma xs sample m ->
    implicit_knn topk (length sample) m sample 1 = Ok xs.
Proof. exact knn_own_points. Qed.
Print Assumptions C104_own_points_partial.

(** From features, the points are those whose features have the largest products with the
    features of the image. *)
Theorem C104_features_partial :
  forall topk, selects_largest topk -> forall d phi_image phi sample num, rect d sample ->
    length phi = length sample -> phi_image <> [] -> (1 <= num <= Z.of_nat (length sample))%Z ->
    exists out, explicit_knn topk phi_image phi sample num = Ok out /\ length out = length phi_image /\
    forall r, (r < length phi_image)%nat ->
      exists idx, NoDup idx /\ length idx = Z.to_nat num /\ Forall (fun i => (i < length sample)%nat) idx /\
        (forall a b, In a idx -> (b < length sample)%nat -> ~ In b idx ->
           dot (nth r phi_image []) (nth b phi []) <= dot (nth r phi_image []) (nth a phi [])) /\
        forall j, (j < d)%nat -> nth j (nth r out []) 0 = mean_at sample idx j.
Proof. exact explicit_knn_mean. Qed.
Print Assumptions C104_features_partial.

(** With the linear kernel the sample is not given back. *)
Theorem C104_linear_refuted :
  forall topk, selects_largest topk -> implicit_knn topk 2 (gram [[1]; [2]] [[1]; [2]]) [[1]; [2]] 1 = Ok [[2]; [2]].
Proof. exact knn_linear_wrong. Qed.
Print Assumptions C104_linear_refuted.

Example C104_nontrivial :
  selects_largest first_largest /\ (Exponential true <> Uniform) /\ offered Euclidean /\
  rect 2 [[1; 2]; [3; 4]] /\ Forall (fun x => In x [[1; 2]; [3; 4]]) [[3; 4]; [1; 2]; [3; 4]] /\
  exists m, kernel_values (Exponential true) Euclidean 1 [[3; 4]] [[1; 2]; [3; 4]] m.
Proof.
  split; [exact first_largest_ok|]. split; [discriminate|]. split; [exact I|]. split; [repeat constructor|].
  split; [repeat (constructor; [cbn; tauto|]); constructor|].
  eexists. constructor; [|constructor].
  constructor; [apply kvalue_shape; [exact I|lra]|]. constructor; [apply kvalue_shape; [exact I|lra]|]. constructor.
Qed.

(** * C105 *)

(** The iterative explicit pre-image accepts images of the size of the features only when
    there are as many features as points. *)
Theorem C105_dimensions_refuted :
  forall topk step stop sample phi df level light phi_image num_iter, df <> length sample ->
    forall cols, is_ok (fst (preimage_phi topk step stop sample phi df level light cols phi_image num_iter)) = false.
Proof. exact preimage_phi_rejects. Qed.
Print Assumptions C105_dimensions_refuted.
Theorem C105_square_partial :
  forall topk step stop sample phi df level light phi_image num_iter,
    (forall i x, exists x', step i x = Ok x') -> df = length sample -> sample <> [] -> phi_image <> [] -> (0 < num_iter)%Z ->
    is_ok (fst (preimage_phi topk step stop sample phi df level light df phi_image num_iter)) = true.
Proof. exact preimage_phi_accepts. Qed.
Print Assumptions C105_square_partial.

Example C105_nontrivial :
  (forall i x, exists x', (fun (_ : nat) (x : mat) => Ok x) i x = Ok x') /\
  fst (preimage_phi first_largest (fun _ x => Ok x) (fun _ => false) [[1]; [2]] [[1]; [2]] 1 2 true 1 [[1]] 3) = Err EAssertionError /\
  fst (preimage_phi first_largest (fun _ x => Ok x) (fun _ => false) [[1]; [2]] [[1]; [2]] 1 2 true 2 [[1; 1]] 3) = Err ERuntimeError.
Proof. split; [intros i x; now exists x|]. split; reflexivity. Qed.

(** * C106 *)

(** The iterations leave everything unchanged when the starting point is converted, and
    give the value of the iterations. *)
Theorem C106_converted_partial :
  forall (F : Type) (step : nat -> list (list F) -> result (list (list F))) stop n h a r h', (a < List.length h)%nat ->
    iterative step stop n h (POther a) = (r, h') -> forall b, (b < List.length h)%nat -> load h' b = load h b.
Proof. exact @iterative_copies. Qed.
Print Assumptions C106_converted_partial.
Theorem C106_value :
  forall step stop n h p r h', (passed_addr p < List.length h)%nat ->
    iterative step stop n h p = (Ok r, h') -> iterate step stop 0 n (load h (passed_addr p)) = Ok (load h' r).
Proof. exact iterative_result. Qed.
Print Assumptions C106_value.

(** A float tensor given as starting point is overwritten: the result is that tensor. *)
Theorem C106_float_refuted :
  forall (F : Type) (step : nat -> list (list F) -> result (list (list F))) stop n h a r h', (a < List.length h)%nat ->
    iterative step stop n h (PFloatTensor a) = (Ok r, h') -> r = a.
Proof. exact @iterative_overwrites. Qed.
Print Assumptions C106_float_refuted.

Example C106_nontrivial :
  iterative (fun _ x => Ok (map (map S) x)) (fun _ => false) 3 [[[4%nat]]] (PFloatTensor 0) = (Ok 0%nat, [[[7%nat]]]) /\
  iterative (fun _ x => Ok (map (map S) x)) (fun _ => false) 3 [[[4%nat]]] (POther 0) = (Ok 1%nat, [[[4%nat]]; [[7%nat]]]).
Proof. split; reflexivity. Qed.
