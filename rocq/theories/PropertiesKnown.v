(** Property theorem C125, continued: exactly which views are predicted. *)
From Verif Require Import Base MultiView MultiViewProofs KnownSpec KnownProofs.
Open Scope string_scope.

(** A prediction is made exactly when some view is given by its name with points and
    the views given by their names have the same number of points; it is then made for
    the views whose name is not a key, in the order of the views. *)
Theorem C125_exactly :
  forall s known out, NoDup (map fst known) ->
  (project_names s known = Ok out <->
   (exists m, points_agree (dkeys (m_views s)) known m) /\
   exists b, out = filter b (dkeys (m_views s)) /\ forall k, b k = true <-> missing known k).
Proof. exact project_exactly. Qed.
Print Assumptions C125_exactly.

(** In all other cases the same error is raised. *)
Theorem C125_errors : forall s known e, project_names s known = Err e -> e = EAssertionError.
Proof. exact project_error. Qed.
Print Assumptions C125_errors.

Example C125_exactly_nontrivial :
  let s := attach_all [("a", 2); ("b", 3); ("c", 1); ("d", 4)]%nat in
  let known := [(KName "c", Some 7); (KNum 3, Some 9); (KName "a", Some 7)]%nat in
  NoDup (map fst known) /\ project_names s known = Ok ["b"; "d"] /\
  project_names s ((KName "b", Some 6%nat) :: known) = Err EAssertionError /\
  project_names s [(KName "b", None)] = Err EAssertionError.
Proof.
  split; [|repeat split]. repeat (apply NoDup_cons; [cbn; intuition discriminate|]). apply NoDup_nil.
Qed.
