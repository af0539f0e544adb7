(** Property theorem C200: whether the points of a sample are trained. *)
From Verif Require Import Base Cache ModuleTree Sample SampleFlagSpec SampleFlagProofs.
Open Scope Z_scope.

(** A parameter handed over is used as it is: values, flag and gradient; plain values
    keep the flag of the object and start without gradient.  So it is even if the
    selection that comes with them is rejected. *)
Theorem C200_handed_over :
  forall (F V : Type) (orth : nat -> nat -> list (list F)) (s : sstate F V) a r t rg g,
    handed_over (ss_trainable s) a = Some (t, rg, g) ->
    let s' := snd (init_sample orth s a r) in
    ss_sample s' = t /\ ss_trainable s' = rg /\ ss_grad s' = g.
Proof. exact @init_handed. Qed.
Print Assumptions C200_handed_over.

(** After any history from any construction, the flag is the last word. *)
Theorem C200_last_word :
  forall (F V : Type) (orth : nat -> nat -> list (list F)) level a num dim tr r os,
    let s := snd (@new_sample F V orth level a num dim tr r) in
    ss_trainable (srun orth s os) = last_word tr (SInit a r :: os).
Proof. exact @new_flag. Qed.
Print Assumptions C200_last_word.

(** And the gradient is the last one handed over or deposited, whatever is updated,
    selected or switched in between. *)
Theorem C200_last_gradient :
  forall (F V : Type) (orth : nat -> nat -> list (list F)) (os : list (sop F)) (s : sstate F V),
    Forall no_creation os -> ss_grad (srun orth s os) = last_gradient (ss_grad s) os.
Proof. exact @run_grad. Qed.
Print Assumptions C200_last_gradient.

(** A trained sample is given a frozen parameter and then plain values: it is not
    trained any more, although it was constructed to be. *)
Example C200_nontrivial :
  let frozen := ParamSample (Tensor 1 [[1]; [2]]) false (Some (Tensor 1 [[8]; [9]])) in
  let os := [SInit frozen full_request; SGrad (Tensor 1 [[3]; [4]]); SSelect full_request;
             SInit (DataSample (Tensor 1 [[5]; [6]])) full_request; SUpdate (Tensor 1 [[7]]) (Some [1])] in
  let s := snd (@new_sample Z nat (fun n d => repeat (repeat 0 d) n) (LStr "normal") (DataSample (Tensor 1 [[0]])) None None
                  true full_request) in
  Forall no_creation os /\ last_word true os = false /\ last_gradient None os = None /\
  last_gradient None (firstn 3 os) = Some (Tensor 1 [[3]; [4]]) /\
  ss_trainable s = true /\ ss_trainable (srun (fun n d => repeat (repeat 0 d) n) s os) = false /\
  ss_sample (srun (fun n d => repeat (repeat 0 d) n) s os) = Tensor 1 [[5]; [7]] /\
  handed_over true frozen = Some (Tensor 1 [[1]; [2]], false, Some (Tensor 1 [[8]; [9]])).
Proof. split; [repeat constructor|]. vm_compute. auto 10. Qed.
