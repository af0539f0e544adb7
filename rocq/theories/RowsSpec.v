(** Vocabulary: several trainings of a model; dimensions of size one. *)
From Verif Require Import Base Cast ModelState.
Open Scope nat_scope.
Open Scope list_scope.

(** Trainings on other numbers of points and dimensions, one after the other, accepted or not. *)
Fixpoint train_all (m : model) (ts : list (nat * nat)) : model :=
  match ts with
  | [] => m
  | t :: ts' => train_all (snd (init_training m (fst t) (snd t))) ts'
  end.

(** The sizes of a shape that are not one, and an index without the coordinates along the others. *)
Definition sizes_above_one (shape : list nat) : list nat := filter (fun d => negb (Nat.eqb d 1)) shape.
Definition indices_above_one (shape idx : list nat) : list nat :=
  map snd (filter (fun di => negb (Nat.eqb (fst di) 1)) (combine shape idx)).
