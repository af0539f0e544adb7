(** Training ([kerch/train/Trainer.py]): batches, and the gradients used in an epoch.
    Definitions only.

    Importing this class fails, because [kerch/opt/Optimizer.py:15] imports a module that does
    not exist; its code is modelled as it is written. *)
From Verif Require Import Base.
Open Scope nat_scope.
Open Scope string_scope.
Open Scope list_scope.

(** *** Batches *)

(** Values given as a batch size. *)
Inductive bsize : Type := BStr (s : string) | BInt (z : Z) | BBool (b : bool) | BOther.

(** [torch.utils.data.BatchSampler(SequentialSampler(range(num)), batch_size=b, drop_last=False)]:
    a batch is emitted when it is full; what is left at the end is emitted if not empty. *)
Fixpoint batches (b : nat) (acc l : list nat) : list (list nat) :=
  match l with
  | [] => match acc with [] => [] | _ => [acc] end
  | x :: l' => if Nat.eqb (S (List.length acc)) b then (acc ++ [x]) :: batches b [] l' else batches b (acc ++ [x]) l'
  end.
(** Its constructor refuses booleans and sizes that are not positive. *)
Definition batch_sampler (num b : nat) : result (list (list nat)) :=
  if Nat.eqb b 0 then Err EValueError else Ok (batches b [] (seq 0 num)).

Record batching : Type := Batching { bt_sampler : list (list nat); bt_size : option bsize }.

(** The [batch_size] setter (65-81); a boolean is an integer for Python. *)
Definition set_batch_size (num : nat) (t : batching) (v : bsize) : result unit * batching :=
  let accept r := match r with Ok bs => (Ok tt, Batching bs (Some v)) | Err e => (Err e, t) end in
  match v with
  | BStr s => if String.eqb s "all" then accept (batch_sampler num num) else (Err EAssertionError, t)
  | BInt z => if (z <=? 0)%Z then (Err EAssertionError, t)
              else if (Z.of_nat num <? z)%Z then (Err EAssertionError, t)
              else accept (batch_sampler num (Z.to_nat z))
  | BBool false => (Err EAssertionError, t)
  | BBool true => if Nat.eqb num 0 then (Err EAssertionError, t) else (Err EValueError, t)
  | BOther => (Err EAssertionError, t)
  end.

(** The points selected in [epochs] epochs (204-215), in order. *)
Fixpoint visited (t : batching) (epochs : nat) : list nat :=
  match epochs with O => [] | S e => List.concat (bt_sampler t) ++ visited t e end.

(** *** Gradients.  [P]: parameters, [G]: gradients, [D]: batches.  [grad_of] is the gradient of
    the loss on a batch, [upd] the update of the optimiser. *)
Section G.
Context {P G D : Type} (zero : G) (add : G -> G -> G) (grad_of : P -> D -> G) (upd : P -> G -> P).

(** One step (212-215): the closure (196-201) evaluates the loss and accumulates its gradient
    ([backward]), and the optimiser uses what has been accumulated (stiefel_optimizer.py:75-77, 84). *)
Definition train_step (s : P * G) (b : D) : P * G :=
  let g := add (snd s) (grad_of (fst s) b) in (upd (fst s) g, g).
(** The steps of an epoch with, for each, the parameters before it and the gradient it uses.
    [zero_grad()] is called before the batches only (206). *)
Fixpoint steps (s : P * G) (bs : list D) : list (P * D * G) :=
  match bs with
  | [] => []
  | b :: bs' => (fst s, b, snd (train_step s b)) :: steps (train_step s b) bs'
  end.
Definition epoch_steps (p : P) (bs : list D) : list (P * D * G) := steps (p, zero) bs.
End G.
