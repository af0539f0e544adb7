(** Pre-image methods ([kerch/method]) on real matrices.  Definitions only. *)
From Verif Require Import Base RVec.
Open Scope R_scope.

Section Method.
  (** [torch.topk(row, k)]: the positions of the [k] largest values.  Which ones are taken
      among equal values is left open. *)
  Variable topk : vec -> nat -> list nat.

  (** [knn] (_knn.py:7-53).  [cols] is the number of columns of the distances; [num] is the
      number of neighbours after [int].  Line 48 tests for non-negative distances (its
      message is about negative ones) and shifts them all. *)
  Definition pick (observations : mat) (idx : list nat) : mat := map (fun i => nth i observations []) idx.
  Definition knn_row (observations : mat) (k : nat) (row : vec) : vec :=
    colwise mean (pick observations (topk (map Ropp row) k)).
  Definition shifted (dists : mat) : mat :=
    let m := lmin (concat dists) in
    if Rle_dec 0 m then map (map (fun v => v - m)) dists else dists.
  Definition knn (cols : nat) (dists observations : mat) (num : Z) : result mat :=
    if negb (Nat.eqb cols (length observations)) then Err EAssertionError
    else if (Z.of_nat cols <? num)%Z then Err EAssertionError
    else if (num <=? 0)%Z then Err EAssertionError
    else match dists with
         | [] => Err ERuntimeError
         | _ => Ok (map (knn_row observations (Z.to_nat num)) (shifted dists))
         end.

  (** [smoother] (_smoother.py:11-68).  [num] is [None] for 'all'.  A row whose kept
      coefficients sum to zero is divided by zero: it gives no numbers ([None]). *)
  Definition scatter (row : vec) (idx : list nat) : vec :=
    map (fun i => if existsb (Nat.eqb i) idx then nth i row 0 else 0) (seq 0 (length row)).
  Definition kept_coeff (cols num : nat) (row : vec) : vec :=
    if Nat.eqb num cols then row else scatter row (topk row num).
  Definition weights (kept : vec) : vec := map (fun v => v / sum kept) kept.
  Definition smoother_row (observations : mat) (kept : vec) : option vec :=
    if Req_EM_T (sum kept) 0 then None
    else Some (map (fun j => dot (weights kept) (column j observations)) (seq 0 (width observations))).
  Definition smoother (cols : nat) (coefficients observations : mat) (num : option Z) : result (list (option vec)) :=
    if negb (Nat.eqb cols (length observations)) then Err EAssertionError
    else
      let num := match num with None => Z.of_nat cols | Some n => n end in
      if (num <=? 0)%Z then Err EAssertionError
      else if (Z.of_nat cols <? num)%Z then Err EAssertionError
      else Ok (map (fun row => smoother_row observations (kept_coeff cols (Z.to_nat num) row)) coefficients).

  (** [iterative] (_iterative.py:12-62): at most [num_iter] steps of the optimiser, each of
      which may raise in the objective; the loop stops early when the learning rate is
      small, which is left open ([stop] at each iteration).  The optimiser itself
      ([torch.optim.SGD]) is the function [step]. *)
  Fixpoint iterate (step : nat -> mat -> result mat) (stop : nat -> bool) (i num_iter : nat) (x : mat) : result mat :=
    match num_iter with
    | O => Ok x
    | S n =>
        bind (step i x) (fun x' => if stop i then Ok x' else iterate step stop (S i) n x')
    end.

  (** The cache level of the kernel (light is 1) while a pre-image is computed. *)
  Definition lowered (light_cache : bool) (level : nat) : nat :=
    if (Nat.ltb 1 level && light_cache)%bool then 1%nat else level.
  Definition restored (light_cache : bool) (original current : nat) : nat :=
    if (Nat.ltb 1 original && light_cache)%bool then original else current.

  (** [iterative_preimage_k] (_iterative.py:65-124): [cols] columns in the image, for a kernel
      with the given current sample and cache level. *)
  Definition neg_dists (k_image : mat) : mat :=
    let m := lmax (concat k_image) in map (map (fun v => - v + m)) k_image.
  Definition preimage_k (step : nat -> mat -> result mat) (stop : nat -> bool)
    (sample : mat) (level : nat) (light_cache : bool) (cols : nat) (k_image : mat) (num_iter : Z) : result mat * nat :=
    let level' := lowered light_cache level in
    if negb (Nat.eqb cols (length sample)) then (Err EAssertionError, level')
    else if (num_iter <=? 0)%Z then (Err EAssertionError, level')
    else
      match k_image with
      | [] => (Err ERuntimeError, level')
      | _ =>
          match bind (knn cols (neg_dists k_image) sample 1) (fun x0 => iterate step stop 0 (Z.to_nat num_iter) x0) with
          | Err e => (Err e, level')
          | Ok x => (Ok x, restored light_cache level level')
          end
      end.

  (** [iterative_preimage_phi] (_iterative.py:127-186).  [phi] are the features of the sample,
      of [dim_feature] columns.  Line 166 compares the width of the image with the number
      of points; the product of line 174 requires the number of features. *)
  Definition preimage_phi (step : nat -> mat -> result mat) (stop : nat -> bool)
    (sample phi : mat) (dim_feature : nat) (level : nat) (light_cache : bool) (cols : nat) (phi_image : mat) (num_iter : Z)
    : result mat * nat :=
    let level' := lowered light_cache level in
    if negb (Nat.eqb cols (length sample)) then (Err EAssertionError, level')
    else if (num_iter <=? 0)%Z then (Err EAssertionError, level')
    else if negb (Nat.eqb cols dim_feature) then (Err ERuntimeError, level')
    else
      match bind (knn (length sample) (map (map Ropp) (gram phi_image phi)) sample 1) (fun x0 => iterate step stop 0 (Z.to_nat num_iter) x0) with
      | Err e => (Err e, level')
      | Ok x => (Ok x, restored light_cache level level')
      end.
End Method.
