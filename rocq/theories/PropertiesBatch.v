(** Property theorems C220: points are evaluated one by one. *)
From Verif Require Import Base Cache CacheSpec Beautify TransformTree TransformSpec RVec RVecProofs TransformR
  TransformRSpec TransformRExamples Method MethodSpec MethodProofs BatchSpec BatchProofs BatchMethod.
Open Scope R_scope.

(** * C220 *)

(** For a sample, a feature map and a list of transforms there is one function of a point such that any
    data, after any history, is transformed by that function, point by point. *)
Theorem C220_features :
  forall (P : Type) (f : P -> vec) (k : P -> P -> R) (sample : list P) (d : nat) (p : path),
    rect d (map f sample) -> enough_points p (length sample) ->
    let num := explicit_numerics (map f) (table k) sample in
    exists g : P -> vec, forall (s : tstate val (list P)) (r : option (list treq)) (x : nat),
      reached num true s -> requested (t_default s) r = Ok p ->
      fst (apply num true (Some x) None r s) = Ok (VMat (map g (t_heap s x))).
Proof. exact features_pointwise. Qed.
Print Assumptions C220_features.

(** The same for kernel matrices between new points: once the matrices of two batches are defined, the
    matrix between any points taken from them is defined, and its entries only depend on the two points. *)
Theorem C220_kernel :
  forall (P : Type) (f : P -> vec) (k : P -> P -> R) (sample : list P) (p : path),
    let num := implicit_numerics (map f) (table k) sample in
    exists g : P -> P -> R,
      forall (s : tstate val (list P)) (r : option (list treq)) (x1 y1 x2 y2 : nat) (m1 m2 : mat),
      reached num false s -> requested (t_default s) r = Ok p ->
      fst (apply num false (Some x1) (Some y1) r s) = Ok (VMat m1) ->
      fst (apply num false (Some x2) (Some y2) r s) = Ok (VMat m2) ->
      m1 = table g (t_heap s x1) (t_heap s y1) /\
      forall (s' : tstate val (list P)) (r' : option (list treq)) (x y : nat),
        reached num false s' -> requested (t_default s') r' = Ok p ->
        incl (t_heap s' x ++ t_heap s' y) (t_heap s x1 ++ t_heap s y1 ++ t_heap s x2 ++ t_heap s y2) ->
        fst (apply num false (Some x) (Some y) r' s') = Ok (VMat (table g (t_heap s' x) (t_heap s' y))).
Proof. exact kernels_pointwise. Qed.
Print Assumptions C220_kernel.

(** And between new points and the sample. *)
Theorem C220_kernel_sample :
  forall (P : Type) (f : P -> vec) (k : P -> P -> R) (sample : list P) (p : path),
    let num := implicit_numerics (map f) (table k) sample in
    exists h : P -> vec, forall (s : tstate val (list P)) (r : option (list treq)) (x1 x2 : nat) (m1 m2 : mat),
      reached num false s -> requested (t_default s) r = Ok p ->
      fst (apply num false (Some x1) None r s) = Ok (VMat m1) ->
      fst (apply num false (Some x2) None r s) = Ok (VMat m2) ->
      m1 = map h (t_heap s x1) /\
      forall (s' : tstate val (list P)) (r' : option (list treq)) (x : nat),
        reached num false s' -> requested (t_default s') r' = Ok p ->
        incl (t_heap s' x) (t_heap s x1 ++ t_heap s x2) ->
        fst (apply num false (Some x) None r' s') = Ok (VMat (map h (t_heap s' x))).
Proof. exact sample_kernels_pointwise. Qed.
Print Assumptions C220_kernel_sample.

(** The pre-images by a kernel smoother of two batches are those of the batches. *)
Theorem C220_smoother :
  forall (topk : vec -> nat -> list nat) (cols : nat) (c1 c2 observations : mat) (num : option Z),
    smoother topk cols (c1 ++ c2) observations num =
    together (smoother topk cols c1 observations num) (smoother topk cols c2 observations num).
Proof. exact smoother_batches. Qed.
Print Assumptions C220_smoother.

(** So are those by nearest neighbours, although the distances are shifted by the smallest of the whole
    batch, if no two distances of a point are the same. *)
Theorem C220_neighbours :
  forall (topk : vec -> nat -> list nat), selects_largest topk ->
  forall (d cols : nat) (d1 d2 observations : mat) (num : Z), rect d observations -> rect cols (d1 ++ d2) ->
    Forall (@NoDup R) (d1 ++ d2) -> d1 <> [] -> d2 <> [] ->
    knn topk cols (d1 ++ d2) observations num =
    together (knn topk cols d1 observations num) (knn topk cols d2 observations num).
Proof. exact knn_batches. Qed.
Print Assumptions C220_neighbours.

(** Trees with a centering and a normalisation, on data of several points; distances without ties. *)
Example C220_nontrivial :
  (exists s, reached (explicit_numerics (map (fun v => v)) (table dot) three) true s /\
     requested (t_default s) None = Ok [Sphere; MeanCenter] /\ rect 2 (map (fun v => v) three) /\
     enough_points [Sphere; MeanCenter] (length three) /\ length (t_heap s 1%nat) = 2%nat) /\
  (exists s m, reached (implicit_numerics (map (fun v => v)) (table dot) three) false s /\
     requested (t_default s) (Some [RName "center"]) = Ok [MeanCenter] /\
     fst (apply (implicit_numerics (map (fun v => v)) (table dot) three) false (Some 1%nat) (Some 2%nat)
            (Some [RName "center"]) s) = Ok (VMat m)) /\
  selects_largest first_largest /\ rect 2 [[1; 2]; [4; 3]] /\ Forall (@NoDup R) [[1; 2]; [4; 3]].
Proof.
  split; [|split; [|split; [exact first_largest_ok|split]]].
  - destruct (fresh_kernel (explicit_numerics (map (fun v : vec => v)) (table dot) three) true (fun _ => [[3; 4]; [1; 2]]))
      as (s & Hr & Hh & Hd).
    exists s. rewrite Hh, Hd. split; [exact Hr|]. split; [reflexivity|]. split; [rewrite map_id; exact three_rect|].
    split; [split; [cbn; lia|cbn; intuition discriminate]|reflexivity].
  - destruct (fresh_kernel (implicit_numerics (map (fun v : vec => v)) (table dot) three) false (fun _ => [[3; 4]; [1; 2]]))
      as (s & Hr & Hh & Hd).
    destruct (centered_defined (fun v : vec => v) dot three s 1%nat 2%nat ltac:(discriminate) Hr) as (m & Hm). exists s, m.
    split; [exact Hr|]. split; [reflexivity|exact Hm].
  - repeat constructor.
  - repeat constructor; cbn; intuition lra.
Qed.
