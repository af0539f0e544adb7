(** Splitting a data set ([kerch/data/_LearningSet.py]).  Definitions only. *)
From Verif Require Import Base.
Open Scope nat_scope.
Open Scope list_scope.

(** Python slices [l[a:b]]: a negative bound counts from the end, and bounds are clipped. *)
Definition clip (n : nat) (z : Z) : nat :=
  if (z <? 0)%Z then Z.to_nat (z + Z.of_nat n) else Nat.min (Z.to_nat z) n.
Definition slice {A : Type} (l : list A) (a b : Z) : list A :=
  let i := clip (List.length l) a in
  let j := clip (List.length l) b in
  firstn (j - i) (skipn i l).

(** The loop of [_indices] (78-87) on the shuffled list [idx]. *)
Fixpoint split_from {A : Type} (idx : list A) (pos : Z) (sizes : list Z) : list (list A) :=
  match sizes with
  | [] => []
  | size :: sizes' =>
      if (size =? 0)%Z then [] :: split_from idx pos sizes'
      else slice idx pos (pos + size) :: split_from idx (pos + size)%Z sizes'
  end.

(** The argument [sizes]: a list of integers, or an integer. *)
Inductive sizes_arg : Type := Sizes (l : list Z) | ASize (z : Z).

(** [_indices] (68-87); [shuffle]: what the random shuffle does, [None] when shuffling is off.
    An integer cannot be iterated over, and [sum] refuses it too. *)
Definition indices (shuffle : option (list nat -> list nat)) (sizes : sizes_arg) (total : option nat) : result (list (list nat)) :=
  match sizes with
  | ASize _ => Err ETypeError
  | Sizes l =>
      let total := match total with Some t => t | None => Z.to_nat (fold_left Z.add l 0%Z) end in
      let idx := seq 0 total in
      Ok (split_from (match shuffle with Some f => f idx | None => idx end) 0 l)
  end.

(** A data set: its points, each with its label. *)
Section S.
Context {X : Type}.
Record learning_set : Type := Learning { ls_training : list X; ls_validation : list X; ls_test : list X }.

(** [data[idx]] with the labels; the indices are those of existing points. *)
Definition select (data : list X) (idx : list nat) : list X :=
  flat_map (fun i => match nth_error data i with Some x => [x] | None => [] end) idx.

(** [_LearningSetTrain] (90-112); [training num]: the points supplied for a request of [num]
    points, or an error.  Simplification: points and labels are supplied together, so that the
    check of their numbers (29-38) always succeeds. *)
Definition learning_train (shuffle : option (list nat -> list nat)) (training : Z -> result (list X))
    (num_training num_validation num_test : Z) : result learning_set :=
  let sizes := [num_training; num_validation; num_test] in
  bind (training (fold_left Z.add sizes 0%Z)) (fun data =>
  bind (indices shuffle (Sizes sizes) (Some (List.length data))) (fun idx =>
  Ok (Learning (select data (nth 0 idx [])) (select data (nth 1 idx [])) (select data (nth 2 idx []))))).

(** [_LearningSetTrainTest] (119-141). *)
Definition learning_train_test (shuffle : option (list nat -> list nat)) (training test : Z -> result (list X))
    (num_training num_validation num_test : Z) : result learning_set :=
  let sizes := [num_training; num_validation] in
  bind (training (fold_left Z.add sizes 0%Z)) (fun data =>
  bind (test num_test) (fun tdata =>
  bind (indices shuffle (Sizes sizes) (Some (List.length data))) (fun idx =>
  bind (indices shuffle (ASize num_test) (Some (List.length tdata))) (fun idx_test =>
  Ok (Learning (select data (nth 0 idx [])) (select data (nth 1 idx [])) (select tdata (List.concat idx_test))))))).
End S.
Arguments learning_set X : clear implicits.

(** *** The numbers of points supplied for a request of [num] (datasets.py) *)

(** [TwoMoons] (42-58): [num // 2] points and the others; [linspace] refuses a negative number
    of points. *)
Definition moons_count (num : Z) : result nat :=
  let out := (num / 2)%Z in
  let inn := (num - out)%Z in
  if ((out <? 0) || (inn <? 0))%Z then Err ERuntimeError else Ok (Z.to_nat inn + Z.to_nat out).
(** [Spiral] (85-111) and [Gaussians] (120-130): twice the rounded half; [np.repeat] and
    [np.random.normal] refuse a negative number. *)
Definition pairs_count (num : Z) : result nat :=
  let size := (- (num / -2))%Z in
  if (size <? 0)%Z then Err EValueError else Ok (2 * Z.to_nat size).
(** [PimaIndians] (68-74) and [Iris] (139-144): all the lines of the file, whatever the
    request. *)
Definition pima_count (num : Z) : result nat := Ok 768.
Definition iris_count (num : Z) : result nat := Ok 150.
