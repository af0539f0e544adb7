(** C190: generated data sets are what they announce. *)
From Coq Require Import Reals List ZArith.
From Verif Require Import Base DataSplit DataSplitSpec Datasets DatasetsSpec DatasetsProofs DatasetsSetProofs DatasetsExamples.
Import ListNotations.
Open Scope R_scope.

(** Two moons: the two classes have the same number of points, up to one. *)
Theorem C190_moons_counts_partial : forall s a b c sep noise draw, shuffling s -> non_negative [a; b; c] ->
  exists d, moons_set sep noise draw s a b c = Ok d /\ set_sizes d = [a; b; c] /\
    Z.of_nat (with_label 0 (all_points d)) = ((a + b + c) / 2)%Z /\
    Z.of_nat (with_label 1 (all_points d)) = (a + b + c - (a + b + c) / 2)%Z.
Proof. exact moons_labels. Qed.
Print Assumptions C190_moons_counts_partial.

(** Without noise each class lies on its half circle, whatever the separation. *)
Theorem C190_moons_circles_partial : forall s a b c sep draw, shuffling s -> non_negative [a; b; c] ->
  exists d, moons_set sep 0 draw s a b c = Ok d /\ forall p l, In (p, l) (all_points d) ->
    (l = 1 /\ lower_half sep p) \/ (l = 0 /\ upper_half (0, 0) p).
Proof. exact moons_where. Qed.
Print Assumptions C190_moons_circles_partial.

(** The points lie in the announced range as long as no draw exceeds two standard deviations. *)
Theorem C190_moons_range_partial : forall s a b c sep noise draw, shuffling s -> non_negative [a; b; c] -> 0 <= noise ->
  (forall i, -2 <= fst (draw i) <= 2 /\ -2 <= snd (draw i) <= 2) ->
  exists d, moons_set sep noise draw s a b c = Ok d /\ forall p l, In (p, l) (all_points d) -> inside (moons_range sep noise) p.
Proof. exact moons_range_holds. Qed.
Print Assumptions C190_moons_range_partial.

(** Without noise and with the default separation no point is in both classes. *)
Theorem C190_moons_labels_partial : forall s a b c draw, shuffling s -> non_negative [a; b; c] ->
  exists d, moons_set (1, 1 / 2) 0 draw s a b c = Ok d /\ consistent (all_points d).
Proof. exact moons_consistent. Qed.
Print Assumptions C190_moons_labels_partial.

(** Other separations: the two half circles may share a point. *)
Theorem C190_moons_labels_refuted : forall draw num, (2 <= num)%nat ->
  In ((1, 0), 1) (moons (2, 0) 0 draw num) /\ In ((1, 0), 0) (moons (2, 0) 0 draw num).
Proof. exact moons_meet. Qed.
Print Assumptions C190_moons_labels_refuted.

(** Spirals: up to 208 points, all the points are different, across the three sets. *)
Theorem C190_spiral_labels_partial : forall s, shuffling s -> forall a b c, non_negative [a; b; c] -> (a + b + c <= 208)%Z ->
  exists d, spiral_set s a b c = Ok d /\ set_sizes d = [a; b; c] /\ consistent (all_points d) /\ NoDup (map fst (all_points d)).
Proof. exact spiral_good. Qed.
Print Assumptions C190_spiral_labels_partial.

(** With an even number of points the two classes have the same size. *)
Theorem C190_spiral_counts_partial : forall s a b c, shuffling s -> non_negative [a; b; c] -> Z.Even (a + b + c) ->
  exists d, spiral_set s a b c = Ok d /\ set_sizes d = [a; b; c] /\
    with_label (-1) (all_points d) = with_label 1 (all_points d).
Proof. exact spiral_even. Qed.
Print Assumptions C190_spiral_counts_partial.

(** From 210 points on, the two spirals meet: the same point has both labels. *)
Theorem C190_spiral_labels_refuted : forall s, shuffling s -> forall a b c, non_negative [a; b; c] ->
  (209 <= a + b + c)%Z -> Z.Even (a + b + c) ->
  exists d, spiral_set s a b c = Ok d /\ In ((1 / 2, 1 / 2), -1) (all_points d) /\ In ((1 / 2, 1 / 2), 1) (all_points d).
Proof. exact spiral_bad. Qed.
Print Assumptions C190_spiral_labels_refuted.

(** From 18 points on, some point is outside of the announced range ... *)
Theorem C190_spiral_range_refuted : forall s a b c, shuffling s -> non_negative [a; b; c] -> Z.Even (a + b + c) -> (18 <= a + b + c)%Z ->
  exists d p, spiral_set s a b c = Ok d /\ In (p, -1) (all_points d) /\ ~ inside spiral_range p.
Proof. exact spiral_far. Qed.
Print Assumptions C190_spiral_range_refuted.

(** ... which should go up to 6 in both directions. *)
Theorem C190_spiral_range_partial : forall s a b c, shuffling s -> non_negative [a; b; c] -> (a + b + c <= 416)%Z ->
  exists d, spiral_set s a b c = Ok d /\ forall p l, In (p, l) (all_points d) -> inside ((-5, 6), (-5, 6)) p.
Proof. exact spiral_near. Qed.
Print Assumptions C190_spiral_range_partial.

(** Three points on the moons. *)
Example C190_nontrivial : shuffling reversed /\ non_negative [1; 1; 1]%Z /\
  forall draw, exists d, moons_set (1, 1 / 2) 0 draw reversed 1 1 1 = Ok d /\
    map snd (all_points d) = [0; 1; 1] /\ map fst (ls_training d) = [(1, 0)] /\ map fst (ls_test d) = [(0, 1 / 2)].
Proof. split; [exact reversed_ok|]. split; [exact ones_ok | exact moons_three]. Qed.
