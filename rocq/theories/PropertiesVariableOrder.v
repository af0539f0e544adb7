(** Property theorems C58 and C81, continued: what stays unset along histories, and
    exactly when a proportion selects nothing. *)
From Coq Require Import QArith Permutation.
From Verif Require Import Base Cache ModuleTree CacheSpec ModuleTreeProofs Sample ViewState ViewSpec VariableOrderSpec VariableOrderProofs.
Open Scope Z_scope.

(** Once the primal variables are assigned, no dual variables can be read until some
    are given again, whatever else is assigned, attached, detached or initialised.
    Missing: the other direction, which is refuted. *)
Theorem C58_primal_history_partial :
  forall (F : Type) (orth : nat -> nat -> @Sample.tensor F) (s : view F) v os,
    fst (set_primal s v) = Ok tt -> Forall gives_no_dual os ->
    unset (get_dual (vrun orth (snd (set_primal s v)) os)).
Proof. exact @primal_then_no_dual. Qed.
Print Assumptions C58_primal_history_partial.

Example C58_history_nontrivial :
  let s := View 2 (Some 2%nat) (whole 2) (Ok 1%nat) (Some 1%nat) (Param 0 (Tensor 1 [[4]; [6]])) (Param 1 empty_tensor) None in
  let os := [VSetDim 3; VInit true true; VSetPrimal (Some (Tensor 1 [[8]])); VAttach (Tensor 1 [[9]]); VDetach] in
  get_dual s = Ok (Tensor 1 [[4]; [6]]) /\ fst (set_primal s (Some (Tensor 1 [[5]]))) = Ok tt /\ Forall gives_no_dual os /\
  get_dual (vrun (fun n q => Tensor q (repeat (repeat 1 q) n)) (snd (set_primal s (Some (Tensor 1 [[5]])))) os) =
    Err ENotInitialized /\
  get_primal (vrun (fun n q => Tensor q (repeat (repeat 1 q) n)) (snd (set_primal s (Some (Tensor 1 [[5]])))) os) =
    Ok (Tensor 1 [[9]]).
Proof. split; [reflexivity|]. split; [reflexivity|]. split; [repeat constructor|]. split; reflexivity. Qed.

(** A proportion selects nothing exactly when it asks for half a point or less. *)
Theorem C81_exactly :
  forall (n : Z) (p : Q) (perm : list Z), 0 <= n -> Permutation perm (range n) -> (0 < p)%Q -> (p <= 1)%Q ->
    exists idx, selection n (proportion p perm) = Ok idx /\ (idx = [] <-> (inject_Z n * p <= 1 # 2)%Q).
Proof. exact selection_exactly. Qed.
Print Assumptions C81_exactly.

Example C81_exactly_nontrivial :
  Permutation [2; 0; 1] (range 3) /\ (0 < 1 # 6)%Q /\ (1 # 6 <= 1)%Q /\
  selection 3 (proportion (1 # 6) [2; 0; 1]) = Ok [] /\ selection 3 (proportion (1 # 5) [2; 0; 1]) = Ok [2].
Proof.
  split. { change (Permutation ([2] ++ [0; 1]) [0; 1; 2]). apply (Permutation_app_comm [2] [0; 1]). }
  split; [reflexivity|]. split; [discriminate|]. split; reflexivity.
Qed.
