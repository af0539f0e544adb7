(** A change of coordinates and an order that change something. *)
From Coq Require Import Permutation.
From Verif Require Import Base RVec RVecProofs Method MethodSpec MethodProofs KernelMethod EquivariantSpec EquivariantProofs.
Open Scope R_scope.

(** Two outputs from one: twice the value less one, and the value itself. *)
Definition twice : mat := [[2]; [1]].
Definition moved : vec := [-1; 0].
Definition heights : mat := [[1]; [4]; [2]].
Definition places : mat := [[0]; [1]; [3]].
(** A kernel whose values differ along every row. *)
Definition tilt (x y : vec) : R := 1 + nth 0 y 0.
Definition turned : list nat := [2; 0; 1]%nat.

Lemma twice_moves : affine twice moved [4] = [7; 4].
Proof. unfold affine, twice, moved, dot, zipw. cbn. repeat f_equal; lra. Qed.
Lemma turned_order : order_of 3 turned.
Proof.
  unfold order_of, turned. cbn. apply (perm_trans (perm_swap 0%nat 2%nat [1%nat])). apply perm_skip. apply perm_swap.
Qed.
Lemma turned_heights : in_order [] turned heights = [[2]; [1]; [4]].
Proof. reflexivity. Qed.
Lemma tilt_distinct : Forall (fun x => NoDup (map (tilt x) places)) places.
Proof.
  repeat constructor; unfold tilt; cbn; intros H; repeat (destruct H as [H|H]); try lra; exact H.
Qed.
Lemma tilt_smooth : exists v, kernel_smoother first_largest tilt places heights None = Ok [Some v; Some v; Some v].
Proof.
  unfold kernel_smoother, smoother. cbn [places heights List.length Nat.eqb negb]. change (Z.of_nat 3 <=? 0)%Z with false.
  change (Z.of_nat 3 <? Z.of_nat 3)%Z with false. cbv iota. unfold kernel_rows, places, tilt. cbn [map nth].
  unfold kept_coeff. change (Nat.eqb (Z.to_nat (Z.of_nat 3)) 3) with true. cbv iota. unfold smoother_row.
  destruct (Req_EM_T (sum [1 + 0; 1 + 1; 1 + 3]) 0) as [Z0|Z0]; [unfold sum in Z0; cbn in Z0; lra|]. eexists. reflexivity.
Qed.
