(** Property theorems C26, C27, C28, C29, C30, C32: what the transforms compute. *)
From Verif Require Import Base Cache CacheSpec Beautify TransformTree TransformSpec RVec RVecProofs TransformR
  TransformRSpec TransformRProofs TransformRTree TransformRCenter TransformRExamples.
Open Scope R_scope.

(** * C26 *)

(** In any state of the tree, reverting the transform of any data gives the data. *)
Theorem C26_revert_undoes :
  forall (D : Type) (feat : D -> mat) (kmat : D -> D -> mat) (sample : D) (d : nat),
    rect d (feat sample) -> let num := explicit_numerics feat kmat sample in
    forall (s : tstate val D) (r : option (list treq)) (p : path) (x : nat),
    reached num true s -> requested (t_default s) r = Ok p ->
    Forall invertible p -> enough_points p (length (feat sample)) -> rect d (feat (t_heap s x)) ->
    exists v s1 s2, apply num true (Some x) None r s = (Ok v, s1) /\
      revert num true v r s1 = (Ok (VMat (feat (t_heap s x))), s2).
Proof. exact @apply_then_revert. Qed.
Print Assumptions C26_revert_undoes.

Theorem C26_revert_undoes_sample :
  forall (D : Type) (feat : D -> mat) (kmat : D -> D -> mat) (sample : D) (d : nat),
    rect d (feat sample) -> let num := explicit_numerics feat kmat sample in
    forall (s : tstate val D) (r : option (list treq)) (p : path),
    reached num true s -> requested (t_default s) r = Ok p ->
    Forall invertible p -> enough_points p (length (feat sample)) ->
    exists v s1 s2, apply num true None None r s = (Ok v, s1) /\
      revert num true v r s1 = (Ok (VMat (feat sample)), s2).
Proof. exact @apply_then_revert_sample. Qed.
Print Assumptions C26_revert_undoes_sample.

(** With a single sample point the standard deviation is not a number, and neither
    is what comes back. *)
Theorem C26_single_point_refuted :
  forall (v : vec) (s : tstate val mat) (x : nat), reached (sample_numerics [v]) true s ->
    exists s1 s2, apply (sample_numerics [v]) true (Some x) None (Some [RName "variance"]) s = (Ok VNaN, s1) /\
      revert (sample_numerics [v]) true VNaN (Some [RName "variance"]) s1 = (Ok VNaN, s2).
Proof. exact single_point_not_reverted. Qed.
Print Assumptions C26_single_point_refuted.

Example C26_nontrivial :
  exists s, reached (sample_numerics three) true s /\ requested (t_default s) None = Ok [UnitVar; MeanCenter] /\
    Forall invertible [UnitVar; MeanCenter] /\ enough_points [UnitVar; MeanCenter] (length three) /\
    rect 2 three /\ rect 2 (t_heap s 7%nat) /\ t_heap s 7%nat <> three.
Proof.
  destruct (fresh_standard (sample_numerics three) true (fun _ => [[0; 1]])) as (s & Hr & Hh & Hd).
  exists s. rewrite Hh, Hd. split; [exact Hr|]. split; [reflexivity|].
  split; [repeat constructor; discriminate|]. split; [split; [cbn; lia|intros _; cbn; lia]|].
  split; [exact three_rect|]. split; [repeat constructor|discriminate].
Qed.

(** * C27 *)

Theorem C27_mean_centering :
  forall (D : Type) (feat : D -> mat) (kmat : D -> D -> mat) (sample : D) (d : nat),
    rect d (feat sample) -> let num := explicit_numerics feat kmat sample in
    forall (s : tstate val D) (r : option (list treq)) (p : path),
    reached num true s -> requested (t_default s) r = Ok (MeanCenter :: p) ->
    enough_points (MeanCenter :: p) (length (feat sample)) ->
    exists o s', apply num true None None r s = (Ok (VMat o), s') /\ rect d o /\ length o = length (feat sample) /\
      forall j, (j < d)%nat -> mean (column j o) = 0.
Proof. exact @apply_mean_center. Qed.
Print Assumptions C27_mean_centering.

Theorem C27_minimum_centering :
  forall (D : Type) (feat : D -> mat) (kmat : D -> D -> mat) (sample : D) (d : nat),
    rect d (feat sample) -> let num := explicit_numerics feat kmat sample in
    forall (s : tstate val D) (r : option (list treq)) (p : path),
    reached num true s -> requested (t_default s) r = Ok (MinCenter :: p) ->
    enough_points (MinCenter :: p) (length (feat sample)) ->
    exists o s', apply num true None None r s = (Ok (VMat o), s') /\ rect d o /\ length o = length (feat sample) /\
      forall j, (j < d)%nat -> lmin (column j o) = 0.
Proof. exact @apply_min_center. Qed.
Print Assumptions C27_minimum_centering.

Theorem C27_unit_variance :
  forall (D : Type) (feat : D -> mat) (kmat : D -> D -> mat) (sample : D) (d : nat),
    rect d (feat sample) -> let num := explicit_numerics feat kmat sample in
    forall (s : tstate val D) (r : option (list treq)) (p : path),
    reached num true s -> requested (t_default s) r = Ok (UnitVar :: p) ->
    enough_points (UnitVar :: p) (length (feat sample)) ->
    exists m o s', chain_sample num p = Ok (VMat m) /\
      apply num true None None r s = (Ok (VMat o), s') /\ rect d o /\ length o = length (feat sample) /\
      forall j, (j < d)%nat -> EPS <= std (column j m) -> std (column j o) = 1.
Proof. exact @apply_unit_var. Qed.
Print Assumptions C27_unit_variance.

Theorem C27_standardize :
  forall (D : Type) (feat : D -> mat) (kmat : D -> D -> mat) (sample : D) (d : nat),
    rect d (feat sample) -> let num := explicit_numerics feat kmat sample in
    forall s : tstate val D, reached num true s ->
    (1 <= length (feat sample))%nat -> (2 <= length (feat sample))%nat ->
    exists o s', apply num true None None (Some [RName "standardize"]) s = (Ok (VMat o), s') /\ rect d o /\
      length o = length (feat sample) /\
      forall j, (j < d)%nat -> mean (column j o) = 0 /\
        (EPS <= std (column j (feat sample)) -> std (column j o) = 1).
Proof. exact @apply_standardize. Qed.
Print Assumptions C27_standardize.

Theorem C27_minmax_rescaling :
  forall (D : Type) (feat : D -> mat) (kmat : D -> D -> mat) (sample : D) (d : nat),
    rect d (feat sample) -> let num := explicit_numerics feat kmat sample in
    forall s : tstate val D, reached num true s -> (1 <= length (feat sample))%nat ->
    exists o s', apply num true None None (Some [RName "minmax_rescaling"]) s = (Ok (VMat o), s') /\ rect d o /\
      length o = length (feat sample) /\
      forall j, (j < d)%nat -> lmin (column j o) = 0 /\ lmax (column j o) <= 1 /\
        (EPS <= lmax (column j (feat sample)) - lmin (column j (feat sample)) -> lmax (column j o) = 1).
Proof. exact @apply_minmax_rescaling. Qed.
Print Assumptions C27_minmax_rescaling.

(** Min-max normalisation alone does not move the minimum: it makes the spread one. *)
Theorem C27_minmax_spread :
  forall (D : Type) (feat : D -> mat) (kmat : D -> D -> mat) (sample : D) (d : nat),
    rect d (feat sample) -> let num := explicit_numerics feat kmat sample in
    forall s : tstate val D, reached num true s -> (1 <= length (feat sample))%nat ->
    exists o s', apply num true None None (Some [RName "minmax"]) s = (Ok (VMat o), s') /\ rect d o /\
      length o = length (feat sample) /\
      forall j, (j < d)%nat -> lmax (column j o) - lmin (column j o) <= 1 /\
        (EPS <= lmax (column j (feat sample)) - lmin (column j (feat sample)) ->
         lmax (column j o) - lmin (column j o) = 1).
Proof. exact @apply_minmax. Qed.
Print Assumptions C27_minmax_spread.

Example C27_nontrivial :
  exists s, reached (sample_numerics three) true s /\ rect 2 three /\ (2 <= length three)%nat /\
    EPS <= std (column 0 three) /\ EPS <= lmax (column 1 three) - lmin (column 1 three) /\
    requested (t_default s) (Some [RName "variance"; RName "center"]) = Ok [MeanCenter; UnitVar] /\
    requested (t_default s) (Some [RName "standardize"]) = Ok [UnitVar; MeanCenter].
Proof.
  destruct (fresh_standard (sample_numerics three) true (fun _ => [[0; 1]])) as (s & Hr & _ & _).
  exists s. pose proof EPS_small. split; [exact Hr|]. split; [exact three_rect|]. split; [cbn; lia|].
  split; [rewrite three_std; lra|]. split; [|split; reflexivity].
  pose proof (lmax_ge (column 1 three) 8 ltac:(cbn; auto)). pose proof (lmin_le (column 1 three) 2 ltac:(cbn; auto)). lra.
Qed.

(** * C28 *)

(** Every row of the result is the projection of the row before the sphere. *)
Theorem C28_unit_vectors :
  forall (D : Type) (feat : D -> mat) (kmat : D -> D -> mat) (sample : D) (d : nat),
    rect d (feat sample) -> let num := explicit_numerics feat kmat sample in
    forall (s : tstate val D) (r : option (list treq)) (p : path) (x : option nat),
    reached num true s -> requested (t_default s) r = Ok (Sphere :: p) ->
    enough_points p (length (feat sample)) -> (forall i, x = Some i -> rect d (feat (t_heap s i))) ->
    exists m o s', value_of num true p (option_map (t_heap s) x) None = Ok (VMat m) /\
      apply num true x None r s = (Ok (VMat o), s') /\ Forall2 on_sphere m o.
Proof. exact @apply_sphere. Qed.
Print Assumptions C28_unit_vectors.

Theorem C28_not_reverted :
  forall (D : Type) (feat : D -> mat) (kmat : D -> D -> mat) (sample : D) (d : nat),
    rect d (feat sample) -> let num := explicit_numerics feat kmat sample in
    forall (s : tstate val D) (r : option (list treq)) (p : path) (v : val),
    reached num true s -> requested (t_default s) r = Ok p ->
    In Sphere p -> enough_points p (length (feat sample)) ->
    exists s', revert num true v r s = (Err EBijection, s').
Proof. exact @sphere_not_reverted. Qed.
Print Assumptions C28_not_reverted.

Example C28_nontrivial :
  exists s, reached (sample_numerics three) true s /\ requested (t_default s) None = Ok [Sphere; MeanCenter] /\
    enough_points [MeanCenter] (length three) /\ rect 2 (t_heap s 4%nat) /\ EPS <= norm [3; 4].
Proof.
  destruct (fresh_kernel (sample_numerics three) true (fun _ => [[3; 4]])) as (s & Hr & Hh & Hd).
  exists s. rewrite Hh, Hd. split; [exact Hr|]. split; [reflexivity|]. split; [split; [cbn; lia|cbn; intuition discriminate]|].
  split; [repeat constructor|]. pose proof EPS_small. apply Rle_trans with 5; [lra|].
  apply norm_at_least; [lra|]. unfold dot. cbn. lra.
Qed.

(** * C29 *)

(** The explicit and the implicit trees of a kernel with a feature map give the same
    kernel matrix, for the sample ([None]) and for new points, when no norm is below
    the square root of the threshold where a sphere is applied. *)
Theorem C29_same_matrix :
  forall (D : Type) (feat : D -> mat) (sample : D) (d : nat),
    let kmat := fun x y => gram (feat x) (feat y) in
    let nume := explicit_numerics feat kmat sample in
    let numk := implicit_numerics feat kmat sample in
    forall (se sk : tstate val D) (r : option (list treq)) (p : path) (same : bool) (x y : option nat),
    rect d (feat sample) -> feat sample <> [] ->
    reached nume true se -> reached numk false sk -> t_heap se = t_heap sk ->
    requested (t_default se) r = Ok p -> requested (t_default sk) r = Ok p -> Forall kernelised p ->
    (same = true -> option_map (t_heap se) x = option_map (t_heap se) y) ->
    rect d (feat (object sample se x)) -> rect d (feat (object sample se y)) -> feat (object sample se y) <> [] ->
    away nume p None -> away nume p (option_map (t_heap se) x) -> away nume p (option_map (t_heap se) y) ->
    exists k se' sk', explicit_k nume same x y r se = (Ok (VMat k), se') /\
      apply numk false x y r sk = (Ok (VMat k), sk').
Proof. exact @trees_agree. Qed.
Print Assumptions C29_same_matrix.

(** Below that norm they differ: a point of norm 1e-4 has normalised kernel 1
    explicitly and 0.1 implicitly. *)
Theorem C29_small_norms_refuted :
  forall se sk : tstate val mat,
    reached (sample_numerics tiny) true se ->
    reached (implicit_numerics (fun x => x) (fun x y => gram x y) tiny) false sk ->
    exists se' sk',
      explicit_k (sample_numerics tiny) true None None (Some [RName "normalize"]) se = (Ok (VMat [[1]]), se') /\
      apply (implicit_numerics (fun x => x) (fun x y => gram x y) tiny) false None None (Some [RName "normalize"]) sk =
        (Ok (VMat [[/ 10]]), sk').
Proof. exact small_norms_disagree. Qed.
Print Assumptions C29_small_norms_refuted.

Example C29_nontrivial :
  let nume := sample_numerics three in
  exists se sk, reached nume true se /\
    reached (implicit_numerics (fun x => x) (fun x y => gram x y) three) false sk /\ t_heap se = t_heap sk /\
    requested (t_default se) (Some [RName "normalize"; RName "center"]) = Ok [MeanCenter; Sphere] /\
    Forall kernelised [MeanCenter; Sphere] /\ rect 2 (t_heap se 3%nat) /\
    away nume [MeanCenter; Sphere] None /\ away nume [MeanCenter; Sphere] (Some (t_heap se 3%nat)).
Proof.
  destruct (fresh_kernel (sample_numerics three) true (fun _ => [[3; 4]])) as (se & He & Hhe & _).
  destruct (fresh_kernel (implicit_numerics (fun x => x) (fun x y => gram x y) three) false (fun _ => [[3; 4]]))
    as (sk & Hk & Hhk & _).
  assert (Hq : sqrt EPS <= 1) by (rewrite <- sqrt_1; apply sqrt_le_1_alt; pose proof EPS_small; lra).
  exists se, sk. rewrite Hhe, Hhk. split; [exact He|]. split; [exact Hk|]. split; [reflexivity|]. split; [reflexivity|].
  split; [constructor; [now left|constructor; [now right|constructor]]|]. split; [repeat constructor|].
  split; (split; [split; [exact I|]|intros H; discriminate H]); intros _ m r E Hr; cbn in E; injection E as <-;
    apply Rle_trans with (1 := Hq); apply norm_at_least; try lra.
  - destruct Hr as [<-|[<-|[<-|[]]]]; unfold dot; cbn; lra.
  - destruct Hr as [<-|[]]. unfold dot. cbn. lra.
Qed.

(** * C30 *)

Theorem C30_sample_sums :
  forall (D : Type) (feat : D -> mat) (kmat : D -> D -> mat) (sample : D),
    let num := implicit_numerics feat kmat sample in
    forall (s : tstate val D) (r : option (list treq)) (p : path) (n : nat) (k : mat),
    reached num false s -> requested (t_default s) r = Ok (MeanCenter :: p) ->
    value_of num false p None None = Ok (VMat k) -> square n k -> (1 <= n)%nat ->
    exists o s', apply num false None None r s = (Ok (VMat o), s') /\ square n o /\
      (forall row, In row o -> sum row = 0) /\
      (symmetric k -> forall j, (j < n)%nat -> sum (column j o) = 0).
Proof. exact @apply_centered_sample. Qed.
Print Assumptions C30_sample_sums.

Theorem C30_new_points_sums :
  forall (D : Type) (feat : D -> mat) (kmat : D -> D -> mat) (sample : D),
    let num := implicit_numerics feat kmat sample in
    forall (s : tstate val D) (r : option (list treq)) (p : path) (n : nat) (k : mat) (x : nat) (kx : mat),
    reached num false s -> requested (t_default s) r = Ok (MeanCenter :: p) ->
    value_of num false p None None = Ok (VMat k) -> square n k -> (1 <= n)%nat ->
    value_of num false p (Some (t_heap s x)) None = Ok (VMat kx) -> rect n kx ->
    exists o s', apply num false (Some x) None r s = (Ok (VMat o), s') /\ rect n o /\ length o = length kx /\
      (forall row, In row o -> sum row = 0).
Proof. exact @apply_centered_oos. Qed.
Print Assumptions C30_new_points_sums.

(** Centering a centered kernel changes nothing: for the sample, for new points with
    the sample and for new points among themselves. *)
Theorem C30_center_twice :
  forall (D : Type) (feat : D -> mat) (kmat : D -> D -> mat) (sample : D),
    let num := implicit_numerics feat kmat sample in
    forall (p : path) (n : nat) (k : mat),
    value_of num false p None None = Ok (VMat k) -> square n k -> (1 <= n)%nat ->
    value_of num false (MeanCenter :: MeanCenter :: p) None None = value_of num false (MeanCenter :: p) None None.
Proof. exact @center_twice. Qed.
Print Assumptions C30_center_twice.

Theorem C30_center_twice_new_points :
  forall (D : Type) (feat : D -> mat) (kmat : D -> D -> mat) (sample : D),
    let num := implicit_numerics feat kmat sample in
    forall (p : path) (n : nat) (k : mat) (x y : D) (kx ky kxy : mat),
    value_of num false p None None = Ok (VMat k) -> square n k -> (1 <= n)%nat ->
    value_of num false p (Some x) None = Ok (VMat kx) -> rect n kx ->
    value_of num false p (Some y) None = Ok (VMat ky) -> rect n ky ->
    value_of num false p (Some x) (Some y) = Ok (VMat kxy) -> rect (length ky) kxy -> length kxy = length kx ->
    value_of num false (MeanCenter :: MeanCenter :: p) (Some x) None =
      value_of num false (MeanCenter :: p) (Some x) None /\
    value_of num false (MeanCenter :: MeanCenter :: p) (Some x) (Some y) =
      value_of num false (MeanCenter :: p) (Some x) (Some y).
Proof. exact @center_twice_new. Qed.
Print Assumptions C30_center_twice_new_points.

(** The columns need a symmetric matrix: this one is the centering of
    [[0; 1]; [0; 0]], its first column sums to -1. *)
Theorem C30_columns_refuted :
  forall s : tstate val unit, reached (implicit_numerics (fun _ : unit => []) (fun _ _ => skew) tt) false s ->
  exists s', apply (implicit_numerics (fun _ : unit => []) (fun _ _ => skew) tt) false None None
      (Some [RName "center"]) s = (Ok (VMat [[- (3 / 4); 3 / 4]; [- (1 / 4); 1 / 4]]), s').
Proof. exact skew_columns. Qed.
Print Assumptions C30_columns_refuted.

Example C30_nontrivial :
  let num := implicit_numerics (fun x => x) (fun x y => gram x y) three in
  exists s, reached num false s /\ requested (t_default s) (Some [RName "center"]) = Ok [MeanCenter] /\
    value_of num false [] None None = Ok (VMat (gram three three)) /\ square 3 (gram three three) /\
    symmetric (gram three three) /\
    value_of num false [] (Some (t_heap s 3%nat)) None = Ok (VMat (gram [[3; 4]] three)) /\ rect 3 (gram [[3; 4]] three).
Proof.
  destruct (fresh_kernel (implicit_numerics (fun x => x) (fun x y => gram x y) three) false (fun _ => [[3; 4]]))
    as (sk & Hk & Hhk & _).
  exists sk. rewrite Hhk. split; [exact Hk|]. split; [reflexivity|]. split; [reflexivity|].
  split; [split; [apply (gram_rect three three)|reflexivity]|]. split; [now apply transpose_gram|].
  split; [reflexivity|]. apply (gram_rect [[3; 4]] three).
Qed.

(** * C32 *)

Theorem C32_symmetric_psd :
  forall (D : Type) (feat : D -> mat) (kmat : D -> D -> mat) (sample : D) (d : nat),
    rect d (feat sample) -> let num := explicit_numerics feat kmat sample in
    forall (s : tstate val D) (r : option (list treq)) (p : path),
    reached num true s -> requested (t_default s) r = Ok p -> enough_points p (length (feat sample)) ->
    exists k s', explicit_k num true None None r s = (Ok (VMat k), s') /\ length k = length (feat sample) /\
      rect (length (feat sample)) k /\ symmetric k /\ forall c, 0 <= quad k c.
Proof. exact @sample_matrix_psd. Qed.
Print Assumptions C32_symmetric_psd.

Theorem C32_transposed :
  forall (D : Type) (feat : D -> mat) (kmat : D -> D -> mat) (sample : D) (d : nat),
    rect d (feat sample) -> let num := explicit_numerics feat kmat sample in
    forall (s : tstate val D) (r : option (list treq)) (p : path) (same : bool) (x y : option nat),
    reached num true s -> requested (t_default s) r = Ok p -> enough_points p (length (feat sample)) ->
    rect d (feat (object sample s x)) -> rect d (feat (object sample s y)) -> feat (object sample s x) <> [] ->
    (same = true -> option_map (t_heap s) x = option_map (t_heap s) y) ->
    exists k s1 s2, explicit_k num same x y r s = (Ok (VMat k), s1) /\
      explicit_k num same y x r s = (Ok (VMat (transpose k)), s2).
Proof. exact @k_transposed. Qed.
Print Assumptions C32_transposed.

Example C32_nontrivial :
  exists s, reached (sample_numerics three) true s /\ requested (t_default s) None = Ok [UnitVar; MeanCenter] /\
    enough_points [UnitVar; MeanCenter] (length three) /\ rect 2 (t_heap s 7%nat) /\
    quad (gram three three) [1; -1; 2] <> 0.
Proof.
  destruct (fresh_standard (sample_numerics three) true (fun _ => [[0; 1]])) as (s & Hr & Hh & Hd).
  exists s. rewrite Hh, Hd. split; [exact Hr|]. split; [reflexivity|].
  split; [split; [cbn; lia|intros _; cbn; lia]|]. split; [repeat constructor|].
  unfold quad, gram, dot. cbn. lra.
Qed.
