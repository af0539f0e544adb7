(** Specification of training. *)
From Verif Require Import Base Trainer.
Open Scope nat_scope.
Open Scope list_scope.

(** What an accepted batch size means. *)
Definition size_of (num : nat) (v : bsize) (b : nat) : Prop :=
  match v with
  | BStr s => s = "all"%string /\ b = num
  | BInt z => Z.of_nat b = z
  | _ => False
  end.
Definition admissible (num : nat) (v : bsize) : Prop := exists b, size_of num v b /\ 1 <= b <= num.

(** The gradients of the loss on the batches of some steps, each at the parameters of its step. *)
Definition own_gradients {P G D : Type} (grad_of : P -> D -> G) (s : list (P * D * G)) : list G := map (fun x => grad_of (fst (fst x)) (snd (fst x))) s.
