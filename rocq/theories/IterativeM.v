(** The iterative method of the pre-images ([kerch/method/_iterative.py]) with its optimiser and
    its schedule, on matrices over a real closed field.  Definitions only. *)
From mathcomp Require Import all_ssreflect all_algebra.
From Verif Require Import LssvmM.
Set Implicit Arguments. Unset Strict Implicit. Unset Printing Implicit Defensive.
Import GRing.Theory Num.Theory Order.POrderTheory Order.TotalTheory.
Local Open Scope ring_scope.

Section Iterative.
  Variable R : rcfType.

  (** The state of [ReduceLROnPlateau] (_iterative.py:36): the best loss, none at first (infinity in
      PyTorch), the number of losses in a row that were not better, the steps left to wait, and the
      learning rate. *)
  Record schedule := Schedule { best_loss : option R; bad : nat; cooldown : nat; rate : R }.
  Definition start_schedule (lr : R) : schedule := Schedule None 0 0 lr.
  (** [is_better] in the mode [min] with the default relative threshold of [1e-4]. *)
  Definition better (b : option R) (l : R) : bool :=
    match b with None => true | Some b => l < b * (1 - 10%:R ^- 4) end.
  (** [scheduler.step(l)] of PyTorch with [factor=.8, patience=50, cooldown=50] (36), its smallest
      rate 0 and its smallest change [1e-8]. *)
  Definition schedule_step (l : R) (s : schedule) : schedule :=
    let b := if better (best_loss s) l then Some l else best_loss s in
    let bad1 := if better (best_loss s) l then 0%N else (bad s).+1 in
    let bad2 := if (0 < cooldown s)%N then 0%N else bad1 in
    if (50 < bad2)%N then
      let new := Num.max (rate s * (4%:R / 5%:R)) 0 in
      Schedule b 0 50 (if 10%:R ^- 8 < rate s - new then new else rate s)
    else Schedule b bad2 (cooldown s).-1 (rate s).

  Section Run.
    Variables (m d : nat) (obj : 'M[R]_(m, d) -> R) (grad : 'M[R]_(m, d) -> 'M[R]_(m, d)).
    (** The loop (49-58): the closure gives the loss and the gradient at the current point, the step of
        [torch.optim.SGD] (35) goes against the gradient, and the loop ends when the rate is small.
        [grad] is what [loss.backward()] computes.  The result comes with the rates that were used. *)
    Fixpoint run (n : nat) (s : schedule) (x : 'M[R]_(m, d)) : 'M[R]_(m, d) * seq R :=
      if n is n'.+1 then
        let x' := x - rate s *: grad x in
        let s' := schedule_step (obj x) s in
        if rate s' < 10%:R ^- 5 then (x', [:: rate s])
        else let r := run n' s' x' in (r.1, rate s :: r.2)
      else (x, [::]).
    (** [iterative] (12-62); [torch.optim.SGD] raises on a negative rate: [None]. *)
    Definition iterative (x0 : 'M[R]_(m, d)) (num_iter : nat) (lr : R) : option ('M[R]_(m, d) * seq R) :=
      if lr < 0 then None else Some (run num_iter (start_schedule lr) x0).
  End Run.

  (** The objective of [iterative_preimage_k] (114-116) for the linear kernel without transform on the
      [n] points [S], and its gradient. *)
  Definition linear_obj n m d (S : 'M[R]_(n, d)) (K : 'M[R]_(m, n)) (x : 'M[R]_(m, d)) : R := mse (x *m S^T) K.
  Definition linear_grad n m d (S : 'M[R]_(n, d)) (K : 'M[R]_(m, n)) (x : 'M[R]_(m, d)) : 'M[R]_(m, d) :=
    (2%:R * (m * n)%:R^-1) *: ((x *m S^T - K) *m S).
End Iterative.
