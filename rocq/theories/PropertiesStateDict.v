(** Property theorems C68: checkpoints. *)
From Verif Require Import Base StateDict StateDictSpec StateDictProofs.
Open Scope string_scope.
Open Scope nat_scope.
Open Scope list_scope.

(** What is saved of a model is empty, whatever its levels: two models are never told apart. *)
Theorem C68_nothing_saved_refuted :
  forall (T : Type) (levels : list (obj T)), state_dict (model_object levels) = [].
Proof. exact @model_saved. Qed.
Print Assumptions C68_nothing_saved_refuted.

(** Loading the checkpoint of a model into another one succeeds, and changes nothing in it. *)
Theorem C68_nothing_restored_refuted :
  forall (T : Type) (same_shape : T -> T -> bool) (levels levels' : list (obj T)),
    load same_shape (state_dict (model_object levels)) (model_object levels') = (Ok tt, model_object levels').
Proof. exact @model_loaded. Qed.
Print Assumptions C68_nothing_restored_refuted.

(** A level or a kernel (with its registered submodules) that is saved and loaded into one with
    the same names and shapes is restored; what is not registered is left alone. *)
Theorem C68_object_partial :
  forall (T : Type) (same_shape : T -> T -> bool) (o o' : obj T),
    well_named o -> same_layout same_shape o o' ->
    exists o'', load same_shape (state_dict o) o' = (Ok tt, o'') /\ state_dict o'' = state_dict o /\ restored o o' o''.
Proof. exact @save_load. Qed.
Print Assumptions C68_object_partial.

(** It cannot be loaded into one with a parameter of another shape, for instance an equally
    configured level that was not yet initialised on its data. *)
Theorem C68_shape_refuted :
  forall (T : Type) (same_shape : T -> T -> bool) (o o' : obj T) k v w,
    NoDup (map fst (state_dict o)) -> In (k, v) (state_dict o) -> In (k, w) (state_dict o') -> same_shape w v = false ->
    fst (load same_shape (state_dict o) o') = Err ERuntimeError.
Proof. exact @load_shape. Qed.
Print Assumptions C68_shape_refuted.

Example C68_nontrivial :
  let same := fun a b : list nat => Nat.eqb (List.length a) (List.length b) in
  let level s a b := Obj [("_sample", s); ("_dual_param", a)] [("_kernel", Obj [("_sigma", b)] [] [])] [] in
  let saved := level [1; 2] [3; 4] [5] in
  let fresh := level [0; 0] [0; 0] [1] in
  well_named saved /\ same_layout same saved fresh /\
  state_dict saved = [(["_sample"], [1; 2]); (["_dual_param"], [3; 4]); (["_kernel"; "_sigma"], [5])] /\
  load same (state_dict saved) fresh = (Ok tt, saved) /\
  load same (state_dict saved) (level [0; 0] [] [1]) = (Err ERuntimeError, level [1; 2] [] [5]) /\
  load same (state_dict (model_object [saved])) (model_object [fresh]) = (Ok tt, model_object [fresh]).
Proof.
  cbv zeta. split.
  { constructor.
    - repeat constructor; cbn; intuition congruence.
    - repeat constructor; cbn; tauto.
    - repeat constructor; cbn; tauto. }
  split; [repeat constructor|]. repeat split; reflexivity.
Qed.
