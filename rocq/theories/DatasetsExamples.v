(** A concrete data set. *)
From Coq Require Import Reals List ZArith Lra Lia Permutation.
From Verif Require Import Base DataSplit DataSplitSpec Datasets DatasetsSpec DatasetsProofs.
Import ListNotations.
Open Scope R_scope.

(** Three points on the moons, one per set, in the reverse order. *)
Definition reversed : option (list nat -> list nat) := Some (@rev nat).
Lemma reversed_ok : shuffling reversed.
Proof. intros l. apply Permutation_sym, Permutation_rev. Qed.
Lemma ones_ok : non_negative [1; 1; 1]%Z.
Proof. intros z H. cbn [In] in H. lia. Qed.
Lemma moons_list : forall draw, moons (1, 1 / 2) 0 draw 3 = [((0, 1 / 2), 1); ((1 - cos PI, 1 / 2 - sin PI), 1); ((1, 0), 0)].
Proof.
  intros draw. unfold moons. rewrite perturb_none. cbn -[cos sin].
  replace (0 * PI / 1) with 0 by lra. replace (1 * PI / 1) with PI by lra. rewrite cos_0, sin_0.
  replace (1 - 1) with 0 by lra. rewrite Rminus_0_r. reflexivity.
Qed.
Lemma moons_three : forall draw, exists d, moons_set (1, 1 / 2) 0 draw reversed 1 1 1 = Ok d /\
  map snd (all_points d) = [0; 1; 1] /\ map fst (ls_training d) = [(1, 0)] /\ map fst (ls_test d) = [(0, 1 / 2)].
Proof.
  intros draw. exists (Learning [((1, 0), 0)] [((1 - cos PI, 1 / 2 - sin PI), 1)] [((0, 1 / 2), 1)]).
  split; [|repeat split; reflexivity].
  unfold moons_set, learning_train. change (Z.to_nat (fold_left Z.add [1; 1; 1]%Z 0%Z)) with 3%nat. rewrite moons_list. reflexivity.
Qed.
