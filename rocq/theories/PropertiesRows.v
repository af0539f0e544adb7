(** C129 over sequences of trainings; C134 exactly. *)
From Verif Require Import Base Cast CastSpec ModelState RowsSpec RowsProofs.
Open Scope nat_scope.
Open Scope list_scope.

(** Once a level in dual has variables, no sequence of trainings, accepted or refused, on whatever
    numbers of points, changes their number of rows; in every model and at every depth. *)
Theorem C129_for_ever_refuted :
  forall (ts : list (nat * nat)) (m : model) i l p, nth_error m i = Some l -> lv_primal l = false -> lv_dual l = Some p ->
  exists l', nth_error (train_all m ts) i = Some l' /\ lv_dual l' = Some p.
Proof. exact rows_for_ever. Qed.
Print Assumptions C129_for_ever_refuted.

Example C129_for_ever_nontrivial :
  let l := Level (Some 4) (Some 3) (Some 6) true false (fun i => match i with Some d => Ok d | None => Err ENotInitialized end)
             (Some (Param 6 3 false)) None false (Some true) true in
  let m := train_all [l] [(9, 4); (2, 7); (6, 1)] in
  map lv_dual m = [Some (Param 6 3 false)] /\ map lv_total m = [Some 6] /\ map lv_in m = [Some 1] /\
  map lv_total (train_all [l] [(9, 4)]) = [Some 9].
Proof. repeat split; reflexivity. Qed.

(** What casting integers gives: with the matrix option more than two dimensions are an error (not the
    intended one); otherwise all sizes of one are removed and the entries stay in their order. *)
Theorem C134_exactly :
  forall (A : Type) (x : array A) (t : bool),
  casti (Some x) t = if t && Nat.ltb 2 (List.length (a_shape x)) then Err ENameError
                     else Ok (Some (Array (sizes_above_one (a_shape x)) (a_data x))).
Proof. exact casti_exactly. Qed.
Print Assumptions C134_exactly.
(** Every entry is found again at its index without the coordinates of the removed dimensions. *)
Theorem C134_entries :
  forall (A : Type) (x y : array A) (t : bool) (is : list nat) (v : A), casti (Some x) t = Ok (Some y) -> entry x is = Some v ->
  entry y (indices_above_one (a_shape x) is) = Some v.
Proof. exact casti_entries. Qed.
Print Assumptions C134_entries.

Example C134_exactly_nontrivial :
  casti (Some (Array [2; 1; 3] [5; 6; 7; 8; 9; 10])) false = Ok (Some (Array [2; 3] [5; 6; 7; 8; 9; 10])) /\
  entry (Array [2; 1; 3] [5; 6; 7; 8; 9; 10]) [1; 0; 2] = Some 10 /\
  entry (Array [2; 3] [5; 6; 7; 8; 9; 10]) (indices_above_one [2; 1; 3] [1; 0; 2]) = Some 10 /\
  casti (Some (Array [2; 1; 3] [5; 6; 7; 8; 9; 10])) true = Err ENameError.
Proof. repeat split; reflexivity. Qed.
