(** Training: batches, gradients, checkpoints and watchers. *)
From Coq Require Import DecimalString.
From Verif Require Import Base Trainer TrainerSpec TrainerProofs Watcher WatcherProofs.
Open Scope string_scope.
Open Scope nat_scope.
Open Scope list_scope.

(** *** C71 *)

(** An admissible batch size ('all', or an integer between 1 and the number of points) is
    accepted; the batches list each index once, in order, none is empty or larger than the size,
    and only the last one can be smaller. *)
Theorem C71_batches : forall num t v, admissible num v ->
  exists b bs, size_of num v b /\ set_batch_size num t v = (Ok tt, Batching bs (Some v)) /\
    List.concat bs = seq 0 num /\ (forall x, In x bs -> 1 <= List.length x <= b) /\
    (forall i x, nth_error bs i = Some x -> S i < List.length bs -> List.length x = b).
Proof. exact set_accepts. Qed.
Print Assumptions C71_batches.
(** Any other value is rejected and nothing changes. *)
Theorem C71_rejected : forall num t v, ~ admissible num v ->
  exists e, set_batch_size num t v = (Err e, t) /\ (e = EAssertionError \/ e = EValueError).
Proof. exact set_rejects. Qed.
Print Assumptions C71_rejected.
(** The points visited by any number of epochs. *)
Theorem C71_epochs : forall num t v t', set_batch_size num t v = (Ok tt, t') ->
  forall epochs, visited t' epochs = List.concat (repeat (seq 0 num) epochs).
Proof. exact visited_epochs. Qed.
Print Assumptions C71_epochs.
Example C71_nontrivial : admissible 5 (BInt 2) /\ ~ admissible 5 (BInt 6) /\ ~ admissible 0 (BStr "all") /\
  set_batch_size 5 (Batching [] None) (BInt 2) = (Ok tt, Batching [[0; 1]; [2; 3]; [4]] (Some (BInt 2))).
Proof.
  split; [exists 2; split; [reflexivity | lia]|]. split; [|split; [|reflexivity]].
  - intros [b [E [A B]]]. cbn in E. lia.
  - intros [b [[_ ->] [A B]]]. lia.
Qed.

(** *** C72 *)

(** Refuted: the gradient used by a step is the sum of the gradients of all the batches so far in
    the epoch; with two batches the second step does not use its own gradient, unless the first
    one vanished. *)
Theorem C72_accumulated : forall (P G D : Type) (zero : G) (add : G -> G -> G) (grad_of : P -> D -> G) (upd : P -> G -> P)
  p0 bs i p b g,
  nth_error (epoch_steps zero add grad_of upd p0 bs) i = Some (p, b, g) ->
  g = fold_left add (own_gradients grad_of (firstn (S i) (epoch_steps zero add grad_of upd p0 bs))) zero.
Proof. intros P G D. exact epoch_used. Qed.
Print Assumptions C72_accumulated.
Theorem C72_own_gradient_refuted : forall (P G D : Type) (zero : G) (add : G -> G -> G) (grad_of : P -> D -> G) (upd : P -> G -> P),
  (forall x, add zero x = x) -> (forall x y, add x y = y -> x = zero) ->
  forall p0 b0 b1 bs p b g, grad_of p0 b0 <> zero ->
  nth_error (epoch_steps zero add grad_of upd p0 (b0 :: b1 :: bs)) 1 = Some (p, b, g) -> g <> grad_of p b.
Proof. intros P G D. exact second_step. Qed.
Print Assumptions C72_own_gradient_refuted.
(** What holds: with a single batch per epoch. *)
Theorem C72_single_batch_partial : forall (P G D : Type) (zero : G) (add : G -> G -> G) (grad_of : P -> D -> G) (upd : P -> G -> P),
  (forall x, add zero x = x) -> forall p0 b0,
  epoch_steps zero add grad_of upd p0 [b0] = [(p0, b0, grad_of p0 b0)].
Proof. intros P G D. exact single_batch. Qed.
Print Assumptions C72_single_batch_partial.
Example C72_nontrivial :
  (forall x, Z.add 0 x = x) /\ (forall x y, Z.add x y = y -> x = 0%Z) /\
  epoch_steps 0%Z Z.add (fun p d => (p - d)%Z) (fun p g => (p - g)%Z) 10%Z [4%Z; 1%Z] =
    [(10, 4, 6); (4, 1, 9)]%Z.
Proof. split; [reflexivity|]. split; [intros; lia | reflexivity]. Qed.

(** *** C73 *)

(** For every number of epochs and saving period, starting without files: exactly one file is
    left, its path is returned, and it holds the state after the last of the epochs at which the
    model was saved (epochs are counted from 0). *)
Theorem C73_last_checkpoint_partial : forall (M : Type) (state : nat -> M) k e, 1 <= k -> 1 <= e ->
  exists n, watch k state [] e = Ok (file_name n, [(file_name n, state n)]) /\
    n mod k = 0 /\ n < e /\ (forall i, i < e -> i mod k = 0 -> i <= n).
Proof. exact checkpoint_left. Qed.
Print Assumptions C73_last_checkpoint_partial.
(** A watcher as its constructor creates it, whatever the arguments: the file holds the state
    after the last epoch. *)
Theorem C73_constructed_partial : forall (M : Type) (state : nat -> M) c k e,
  new_watcher c = Ok k \/ new_saver c = Ok k -> 1 <= e ->
  watch k state [] e = Ok (file_name (e - 1), [(file_name (e - 1), state (e - 1))]).
Proof. exact constructed_watch. Qed.
Print Assumptions C73_constructed_partial.
(** Refuted for other periods: the state after the last epoch is lost whenever the period does
    not divide the number of epochs minus one. *)
Theorem C73_final_state_refuted : forall (M : Type) (state : nat -> M) k e, 1 <= k -> 1 <= e -> (e - 1) mod k <> 0 ->
  exists n, n < e - 1 /\ watch k state [] e = Ok (file_name n, [(file_name n, state n)]).
Proof. exact lost_state. Qed.
Print Assumptions C73_final_state_refuted.
(** A file of another origin in the directory, whose name has no number between the first six and
    the last four characters, makes the end of the training fail, and nothing is removed. *)
Theorem C73_foreign_refuted : forall (M : Type) (d : directory M) f, In f (dkeys d) ->
  NilEmpty.uint_of_string (substring 6 (String.length f - 10) f) = None -> finish d = (Err EValueError, d).
Proof. intros M d f. apply finish_foreign. Qed.
Print Assumptions C73_foreign_refuted.
Example C73_foreign_nontrivial :
  let d := [("epoch-3.pth", 9); ("notes.txt.old", 0)] in
  In "notes.txt.old" (dkeys d) /\ (NilEmpty.uint_of_string (substring 6 3 "notes.txt.old") = None) /\ (finish d = (Err EValueError, d)).
Proof. split; [right; left; reflexivity|]. split; vm_compute; reflexivity. Qed.
Example C73_nontrivial : new_watcher (Call 3 ["verbose"]) = Ok 1 /\
  watch 3 (fun n => n * n) [] 12 = Ok ("epoch-9.pth", [("epoch-9.pth", 81)]) /\
  watch 1 (fun n => n * n) [] 12 = Ok ("epoch-11.pth", [("epoch-11.pth", 121)]).
Proof. split; [reflexivity|]. split; vm_compute; reflexivity. Qed.

(** *** C74 *)

(** Refuted: whatever the name and the arguments, an error is raised. *)
Theorem C74_by_name_refuted : forall lookup t c, exists e, make_watcher package_names lookup t c = Err e.
Proof. exact no_watcher. Qed.
Print Assumptions C74_by_name_refuted.
(** Even if the package had the attribute that is read, a saver, the default, would not be
    created with the keyword arguments of the trainer. *)
Theorem C74_saver_refuted : forall names lookup t c, In "model" (c_keywords c) -> lookup t = Some new_saver ->
  exists e, make_watcher names lookup t c = Err e.
Proof. exact saver_by_name. Qed.
Print Assumptions C74_saver_refuted.
Example C74_nontrivial : In "model" (c_keywords (Call 0 trainer_keywords)) /\
  new_watcher (Call 0 trainer_keywords) = Ok 1 /\ new_saver (Call 4 []) = Ok 1 /\
  make_watcher ("watch" :: package_names) (fun _ => Some new_watcher) "wandb" (Call 0 trainer_keywords) = Ok 1.
Proof. split; [left; reflexivity|]. split; [reflexivity|]. split; reflexivity. Qed.

(** *** C132 *)

(** Refuted: no constructor accepts the documented saving period, or any option besides the four
    parameters. *)
Theorem C132_options_refuted : forall c k, In k (c_keywords c) -> ~ In k parameters -> exists e, new_watcher c = Err e.
Proof. exact no_option. Qed.
Print Assumptions C132_options_refuted.
Theorem C132_period_partial : forall c p, new_watcher c = Ok p \/ new_saver c = Ok p -> p = 1.
Proof. exact period_always_one. Qed.
Print Assumptions C132_period_partial.
Example C132_nontrivial :
  In "num_epochs_save" (c_keywords (Call 3 ["num_epochs_save"])) /\ ~ In "num_epochs_save" parameters /\
  new_watcher (Call 3 ["num_epochs_save"]) = Err ETypeError /\ new_watcher (Call 3 []) = Ok 1.
Proof.
  split; [left; reflexivity|]. split; [|split; reflexivity]. intros [H|[H|[H|[H|[]]]]]; discriminate H.
Qed.
