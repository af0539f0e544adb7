(** What one expects of a generated data set for classification. *)
From Coq Require Import Reals List.
From Verif Require Import DataSplit Datasets.
Open Scope R_scope.

(** A point lies in a range. *)
Definition inside (range : (R * R) * (R * R)) (p : R * R) : Prop :=
  fst (fst range) <= fst p <= snd (fst range) /\ fst (snd range) <= snd p <= snd (snd range).
(** The number of points with a label. *)
Definition with_label (c : R) (l : list labelled) : nat :=
  List.length (filter (fun p => if Req_EM_T (snd p) c then true else false) l).
(** The same point never has two labels. *)
Definition consistent (l : list labelled) : Prop :=
  forall p c c', In (p, c) l -> In (p, c') l -> c = c'.
(** Upper and lower half of a circle of radius 1. *)
Definition upper_half (centre p : R * R) : Prop :=
  (fst p - fst centre) * (fst p - fst centre) + (snd p - snd centre) * (snd p - snd centre) = 1 /\ snd centre <= snd p.
Definition lower_half (centre p : R * R) : Prop :=
  (fst p - fst centre) * (fst p - fst centre) + (snd p - snd centre) * (snd p - snd centre) = 1 /\ snd p <= snd centre.
(** All the points of a learning set. *)
Definition all_points {X} (d : learning_set X) : list X := (ls_training d ++ ls_validation d ++ ls_test d)%list.
