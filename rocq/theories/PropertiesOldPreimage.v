(** The older package of pre-image methods (C214). *)
From Verif Require Import Base RVec RVecProofs Method MethodSpec MethodProofs OldPreimage SmoothSpec OldPreimageProofs.
Open Scope R_scope.

(** With fewer neighbours than points, it is the smoother of [kerch.method]. *)
Theorem C214_few_partial :
  forall order cols c x num, selects_largest (fun row k => firstn k (order row)) -> rect cols c -> c <> [] ->
  length x = cols -> (0 < num < Z.of_nat cols)%Z ->
  old_smoother order cols c x num = smoother (fun row k => firstn k (order row)) cols c x (Some num).
Proof. exact few_same. Qed.
Print Assumptions C214_few_partial.
(** With all points, it agrees with it for all the points [x] exactly when every non-zero
    coefficient stands in a row and a column of the same sum. *)
Theorem C214_agree_iff :
  forall cols c, rect cols c -> cols <> 0%nat ->
  (forall row, In row c -> sum row <> 0) -> (forall l, (l < cols)%nat -> sum (column l c) <> 0) ->
  (forall order topk num d x, (Z.of_nat cols <= num)%Z -> length x = cols -> rect d x ->
     old_smoother order cols c x num = smoother topk cols c x None) <->
  (forall i l, (i < length c)%nat -> (l < cols)%nat -> entry c i l <> 0 -> sum (nth i c []) = sum (column l c)).
Proof. exact agree_iff. Qed.
Print Assumptions C214_agree_iff.
(** What it returns then: every [x] is shared out among the points, so that totals are kept; nothing
    is returned when a column sums to zero. *)
Theorem C214_totals_partial :
  forall order cols d c x num, rect cols c -> cols <> 0%nat -> length x = cols -> rect d x -> (Z.of_nat cols <= num)%Z ->
  ((forall l, (l < cols)%nat -> sum (column l c) <> 0) ->
   exists m, old_smoother order cols c x num = Ok (map Some m) /\ length m = length c /\ rect d m /\
     (forall i j, (i < length c)%nat -> (j < d)%nat ->
        entry m i j = sum (map (fun l => entry c i l / sum (column l c) * entry x l j) (seq 0 cols))) /\
     forall j, (j < d)%nat -> sum (column j m) = sum (column j x)) /\
  (forall l, (l < cols)%nat -> sum (column l c) = 0 -> old_smoother order cols c x num = Ok (map (fun _ => None) c)).
Proof.
  intros order cols d c x num R ne Lx Rx Hn.
  assert (E : old_smoother order cols c x num = Ok (old_all cols c x)).
  { unfold old_smoother. rewrite Lx, Nat.eqb_refl. cbn [negb]. destruct (Z.leb_spec (Z.of_nat cols) num) as [_|bad]; [reflexivity|lia]. }
  rewrite E. split.
  - intros NZ. exists (old_matrix cols d c x). split; [apply (f_equal Ok); exact (old_all_rows cols d c x R Lx Rx ne NZ)|].
    destruct (old_matrix_shape cols d c x) as [A B]. split; [exact A|]. split; [exact B|]. split.
    + intros i j. exact (old_matrix_entry cols d c x i j).
    + intros j Hj. exact (old_total cols d c x j Lx Hj NZ).
  - intros l Hl Z. apply (f_equal Ok). unfold old_all. rewrite (proj2 (zero_sum cols c)); [reflexivity|]. exists l. split; assumption.
Qed.
Print Assumptions C214_totals_partial.
(** For a single point the coefficients do not matter at all: the sum of all [x] is returned. *)
Theorem C214_smoother_refuted :
  forall order row x d num, length x = length row -> rect d x -> row <> [] -> Forall (fun v => v <> 0) row ->
  (Z.of_nat (length row) <= num)%Z ->
  old_smoother order (length row) [row] x num = Ok [Some (map (fun j => sum (column j x)) (seq 0 d))].
Proof. exact one_point. Qed.
Print Assumptions C214_smoother_refuted.
(** No neighbour is not refused: zeros are returned. *)
Theorem C214_none_refuted :
  forall order cols c x, cols <> 0%nat -> length x = cols -> c <> [] ->
  old_smoother order cols c x 0 = Ok (map (fun _ => Some (map (fun _ => 0) (seq 0 (width x)))) c).
Proof. exact no_neighbours. Qed.
Print Assumptions C214_none_refuted.
(** The other functions of the package never return. *)
Theorem C214_others_refuted :
  forall shape num_iter, is_ok (old_knn shape) = false /\ is_ok (old_iterative num_iter) = false /\ is_ok old_ridge_regression = false.
Proof. intros [|a shape] num_iter; repeat split. Qed.
Print Assumptions C214_others_refuted.
Example C214_nontrivial :
  selects_largest (fun row k => firstn k (sort_by row (seq 0 (length row)))) /\
  rect 2 [[1; 1]; [3; 0]] /\ (forall row, In row [[1; 1]; [3; 0]] -> sum row <> 0) /\
  (forall l, (l < 2)%nat -> sum (column l [[1; 1]; [3; 0]]) <> 0) /\
  entry [[1; 1]; [3; 0]] 0 0 <> 0 /\ sum (nth 0 [[1; 1]; [3; 0]] []) <> sum (column 0 [[1; 1]; [3; 0]]) /\
  forall order topk, old_smoother order 2 [[1; 1]] [[2]; [4]] 2 = Ok [Some [6]] /\ smoother topk 2 [[1; 1]] [[2]; [4]] None = Ok [Some [3]].
Proof.
  split; [exact first_largest_ok|]. split; [repeat constructor|]. split; [intros row [<-|[<-|[]]]; cbn; lra|].
  split; [intros [|[|l]] H; cbn; try lra; lia|]. split; [cbn; lra|]. split; [cbn; lra|]. intros order topk. split.
  - refine (eq_trans (one_point order [1; 1] [[2]; [4]] 1 2 _ _ _ _ _) _); [reflexivity|repeat constructor|discriminate|repeat constructor; lra|cbn; lia|cbn; do 4 f_equal; lra].
  - rewrite (new_rows topk 2 1); [cbn; do 4 f_equal; lra|repeat constructor|reflexivity|repeat constructor|discriminate|].
    intros row [<-|[]]; cbn; lra.
Qed.
