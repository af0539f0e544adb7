(** Specification of the splits of a data set. *)
From Coq Require Import Permutation.
From Verif Require Import Base DataSplit.
Open Scope nat_scope.
Open Scope list_scope.

(** The requested numbers. *)
Definition requested (sizes : list Z) : Z := fold_right Z.add 0%Z sizes.
Definition non_negative (sizes : list Z) : Prop := forall z, In z sizes -> (0 <= z)%Z.
(** What a shuffle may do; [None]: no shuffling. *)
Definition shuffling (s : option (list nat -> list nat)) : Prop :=
  match s with Some f => forall l, Permutation (f l) l | None => True end.
Definition sizes_of {A : Type} (parts : list (list A)) : list Z := map (fun p => Z.of_nat (List.length p)) parts.
(** The sizes of the three sets. *)
Definition set_sizes {X : Type} (d : learning_set X) : list Z := sizes_of [ls_training d; ls_validation d; ls_test d].
(** Every point of the three sets is one of the data, each used at most once. *)
Definition drawn {X : Type} (d : learning_set X) (data : list X) : Prop :=
  exists rest, Permutation (ls_training d ++ ls_validation d ++ ls_test d ++ rest) data.
(** A request is met if there are enough points for it. *)
Definition supplies {X : Type} (training : Z -> result (list X)) (count : Z -> result nat) : Prop :=
  forall num, match count num with
              | Ok n => exists data, training num = Ok data /\ List.length data = n
              | Err e => training num = Err e
              end.
