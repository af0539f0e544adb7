(** The generated data sets ([kerch/data/datasets.py]).  Definitions only. *)
From Coq Require Import Reals List ZArith.
From Verif Require Import Base DataSplit.
Import ListNotations.
Open Scope R_scope.

(** A point of the plane with its label. *)
Notation labelled := ((R * R) * R)%type (only parsing).

(** [torch.linspace(0, end, n)]: [n] equally spaced numbers, the first being 0 and the last, if
    there are several, [end]. *)
Definition linspace0 (stop : R) (n : nat) : list R :=
  match n with
  | O => []
  | S O => [0]
  | S (S m) => map (fun i => INR i * stop / INR (S m)) (seq 0 n)
  end.

(** *** [TwoMoons] (13-60) *)

(** The two half circles (42-53): [num // 2] outer points, the others inner points. *)
Definition outer_moon (n : nat) : list (R * R) := map (fun t => (cos t, sin t)) (linspace0 PI n).
Definition inner_moon (sep : R * R) (n : nat) : list (R * R) :=
  map (fun t => (fst sep - cos t, snd sep - sin t)) (linspace0 PI n).
(** The inner points come first, with the label 1, then the outer ones with the label 0 (51-53). *)
Definition moons_exact (sep : R * R) (num : nat) : list labelled :=
  let out := Nat.div num 2 in
  (map (fun p => (p, 1%R)) (inner_moon sep (num - out)) ++ map (fun p => (p, 0%R)) (outer_moon out))%list.
(** [data += noise * torch.randn(data.shape)] (55-56); [draw i] is the draw for the point [i]. *)
Definition perturb (noise : R) (draw : nat -> R * R) (l : list labelled) : list labelled :=
  map (fun ip : nat * labelled =>
         let '(i, ((x, y), c)) := ip in ((x + noise * fst (draw i), y + noise * snd (draw i)), c))
      (combine (seq 0 (List.length l)) l).
Definition moons (sep : R * R) (noise : R) (draw : nat -> R * R) (num : nat) : list labelled :=
  perturb noise draw (moons_exact sep num).
(** The announced range (23-32): smallest and largest abscissa, smallest and largest ordinate. *)
Definition moons_range (sep : R * R) (noise : R) : (R * R) * (R * R) :=
  let min_x := Rmin (-1) (fst sep - 1) - 2 * noise in
  let max_x := Rmax 1 (fst sep + 1) + 2 * noise in
  let min_y := Rmin 0 (snd sep - 1) - 2 * noise in
  let max_y := Rmax 1 (snd sep) + 2 * noise in
  let fact_x := (max_x - min_x) / 2 in
  let fact_y := (max_y - min_y) / 2 in
  ((min_x - fact_x, max_x + fact_x), (min_y - fact_y, max_y + fact_y)).

(** *** [Spiral] (77-111) *)

(** [-(num // -2)] (87). *)
Definition half_up (num : nat) : nat := Z.to_nat (- (Z.of_nat num / -2)).
(** [spiral_xy] (89-101). *)
Definition spiral_xy (i : nat) (spiral_num : R) : R * R :=
  let phi := INR i / 16 * PI in
  let r := 70 * ((104 - INR i) / 104) in
  (r * cos phi * spiral_num / 13 + 1 / 2, r * sin phi * spiral_num / 13 + 1 / 2).
(** The first spiral with the label -1, then the second one with the label 1 (103-111). *)
Definition spiral (num : nat) : list labelled :=
  (map (fun i => (spiral_xy i 1, -1)) (seq 0 (half_up num)) ++
   map (fun i => (spiral_xy i (-1), 1)) (seq 0 (half_up num)))%list.
(** The announced range (82). *)
Definition spiral_range : (R * R) * (R * R) := ((-5, 6), (-5, 5)).

(** *** As learning sets (_LearningSet.py:90-112) *)

(** A request that is too small is refused (see [DataSplit.v]). *)
Definition moons_set (sep : R * R) (noise : R) (draw : nat -> R * R) (shuffle : option (list nat -> list nat)) :
    Z -> Z -> Z -> result (learning_set labelled) :=
  learning_train shuffle (fun num => bind (moons_count num) (fun _ => Ok (moons sep noise draw (Z.to_nat num)))).
Definition spiral_set (shuffle : option (list nat -> list nat)) : Z -> Z -> Z -> result (learning_set labelled) :=
  learning_train shuffle (fun num => bind (pairs_count num) (fun _ => Ok (spiral (Z.to_nat num)))).
