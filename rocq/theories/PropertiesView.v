(** Property theorems C57, C58, C110-C115: the variables of a level. *)
From Verif Require Import Base Cache Sample ViewState ViewSpec ViewProofs ViewHistory.
Open Scope nat_scope.

(** * C57 *)

(** With the whole sample selected, and variables of the size of the solution or none, the
    variables reported are the solution, row by row. *)
Theorem C57_whole_partial :
  forall (F : Type) (orth : nat -> nat -> @tensor F), (forall n q, matrix n q (orth n q)) ->
  forall (s : view F) n q e, v_total s = Some n -> v_out s = Some q -> v_idx s = whole n -> n * q <> 0 ->
    (exists_ (v_dual s) = true -> rows (p_val (v_dual s)) = n /\ cols (p_val (v_dual s)) = q) -> matrix n q e ->
    fst (update_dual orth s e) = Ok tt /\ get_dual (snd (update_dual orth s e)) = Ok e /\
    v_out (snd (update_dual orth s e)) = Some q /\ p_val (v_dual (snd (update_dual orth s e))) = e.
Proof. exact @update_whole. Qed.
Print Assumptions C57_whole_partial.

(** In general the selection is applied twice. *)
Theorem C57_value :
  forall (F : Type) (orth : nat -> nat -> @tensor F), (forall n q, matrix n q (orth n q)) ->
  forall (s : view F) n q e r r2, v_total s = Some n -> v_out s = Some q -> List.length (v_idx s) = n -> n * q <> 0 ->
    (exists_ (v_dual s) = true -> rows (p_val (v_dual s)) = n /\ cols (p_val (v_dual s)) = q) -> matrix n q e ->
    select (t_rows e) (v_idx s) = Ok r -> select r (v_idx s) = Ok r2 ->
    fst (update_dual orth s e) = Ok tt /\ get_dual (snd (update_dual orth s e)) = Ok (Tensor q r2).
Proof. exact @update_select. Qed.
Print Assumptions C57_value.

(** Three points in another order get the variables of their neighbours. *)
Theorem C57_order_refuted :
  forall (F : Type) (orth : nat -> nat -> @tensor F), (forall n q, matrix n q (orth n q)) ->
  forall (s : view F) q a b c, v_total s = Some 3 -> v_out s = Some q -> v_idx s = [1; 2; 0]%Z -> 0 < q ->
    (exists_ (v_dual s) = true -> rows (p_val (v_dual s)) = 3 /\ cols (p_val (v_dual s)) = q) -> matrix 3 q (Tensor q [a; b; c]) ->
    fst (update_dual orth s (Tensor q [a; b; c])) = Ok tt /\
    get_dual (snd (update_dual orth s (Tensor q [a; b; c]))) = Ok (Tensor q [c; a; b]).
Proof. exact @rotated. Qed.
Print Assumptions C57_order_refuted.

(** Solving on some of the points only, two or more, is not possible. *)
Theorem C57_subset_refuted :
  forall (F : Type) (orth : nat -> nat -> @tensor F), (forall n q, matrix n q (orth n q)) ->
  forall (s : view F) n q e, v_total s = Some n -> v_out s = Some q -> List.length (v_idx s) <> n ->
    List.length (v_idx s) <> 1 -> n * q <> 0 ->
    (exists_ (v_dual s) = true -> rows (p_val (v_dual s)) = n /\ cols (p_val (v_dual s)) = q) ->
    exists x, fst (update_dual orth s e) = Err x.
Proof. exact @update_subset. Qed.
Print Assumptions C57_subset_refuted.

Example C57_nontrivial :
  let s := View 2 (Some 3) [1; 2; 0]%Z (Err EExplicit) (Some 1) (Param 0 (Tensor 1 [[7]; [8]; [9]])) (Param 1 empty_tensor) None in
  v_total s = Some 3 /\ matrix 3 1 (Tensor 1 [[4]; [5]; [6]]) /\
  get_dual (snd (update_dual ones s (Tensor 1 [[4]; [5]; [6]]))) = Ok (Tensor 1 [[6]; [4]; [5]]).
Proof. split; [reflexivity|]. split; [|reflexivity]. split; [reflexivity|]. split; [reflexivity|]. repeat constructor. Qed.

(** * C58 *)

(** Assigning the primal variables leaves no dual variables to be read. *)
Theorem C58_primal_assigned_partial :
  forall (F : Type) (s : view F) v, fst (set_primal s v) = Ok tt -> unset (get_dual (snd (set_primal s v))).
Proof. exact @primal_unsets_dual. Qed.
Print Assumptions C58_primal_assigned_partial.

(** Assigning the dual variables leaves the primal ones as they were, whatever primal
    variables [W h] correspond to the assigned [h]. *)
Theorem C58_dual_assigned_refuted :
  forall (F : Type) (W : @tensor F -> @tensor F) (s : view F) h w, get_primal s = Ok w -> W h <> w ->
    get_primal (set_dual s (Some h)) = Ok w /\ get_primal (set_dual s (Some h)) <> Ok (W h) /\
    ~ unset (get_primal (set_dual s (Some h))).
Proof. exact @stale_primal. Qed.
Print Assumptions C58_dual_assigned_refuted.
Theorem C58_dual_updated_refuted :
  forall (F : Type) (orth : nat -> nat -> @tensor F) (s : view F) v, get_primal (snd (update_dual orth s v)) = get_primal s.
Proof. exact @update_keeps_primal. Qed.
Print Assumptions C58_dual_updated_refuted.

Example C58_nontrivial :
  let s := View 2 (Some 2) (whole 2) (Ok 1) (Some 1) (Param 0 empty_tensor) (Param 1 empty_tensor) None in
  let s' := snd (set_primal s (Some (Tensor 1 [[5]]))) in
  fst (set_primal s (Some (Tensor 1 [[5]]))) = Ok tt /\ get_primal s' = Ok (Tensor 1 [[5]]) /\
  get_dual (set_dual s' (Some (Tensor 1 [[1]; [2]]))) = Ok (Tensor 1 [[1]; [2]]).
Proof. repeat split. Qed.

(** * C110 *)

(** In primal, solving succeeds whatever the number of components that are kept. *)
Theorem C110_primal_partial :
  forall (F : Type) (eig : nat -> list F * @tensor F) (small : F -> bool) (s : kpca F) d,
    v_feat (k_view s) = Ok d -> v_attached (k_view s) = None -> good_eig eig d -> 0 < d ->
    (exists_ (v_primal (k_view s)) = true -> rows (p_val (v_primal (k_view s))) = d) ->
    let q := match v_out (k_view s) with None => d | Some q => Nat.min q d end in
    let v := fst (eig q) in let e := snd (eig q) in
    kept small v <> [] ->
    fst (solve_primal eig small s) = Ok tt /\
    get_primal (k_view (snd (solve_primal eig small s))) = Ok (snd (prune small v e)) /\
    k_vals (snd (solve_primal eig small s)) = kept small v /\
    v_out (k_view (snd (solve_primal eig small s))) = Some (List.length (kept small v)) /\
    unset (get_dual (k_view (snd (solve_primal eig small s)))).
Proof. exact @solve_primal_ok. Qed.
Print Assumptions C110_primal_partial.
(** In dual, on the whole sample, when there are no variables yet or when they have the
    right size. *)
Theorem C110_dual_partial :
  forall (F : Type) (orth : nat -> nat -> @tensor F), (forall n q, matrix n q (orth n q)) ->
  forall (eig : nat -> list F * @tensor F) (small : F -> bool) (fact : F -> F) (s : kpca F) n,
    v_total (k_view s) = Some n -> v_idx (k_view s) = whole n -> good_eig eig n -> 0 < n ->
    let q := match v_out (k_view s) with None => n | Some q => Nat.min q n end in
    let v := fst (eig q) in let e := snd (eig q) in
    kept small v <> [] ->
    (exists_ (v_dual (k_view s)) = true -> rows (p_val (v_dual (k_view s))) = n /\
       (v_out (k_view s) = Some (List.length (kept small v)) -> cols (p_val (v_dual (k_view s))) = List.length (kept small v)) /\
       (forall q, v_out (k_view s) = Some q -> n < q \/ q = List.length (kept small v)) /\ v_out (k_view s) <> None) ->
    fst (solve_dual orth eig small fact s) = Ok tt /\
    get_dual (k_view (snd (solve_dual orth eig small fact s))) = Ok (snd (prune small v e)) /\
    k_vals (snd (solve_dual orth eig small fact s)) = map fact (kept small v) /\
    v_out (k_view (snd (solve_dual orth eig small fact s))) = Some (List.length (kept small v)).
Proof. exact @solve_dual_whole. Qed.
Print Assumptions C110_dual_partial.

(** Otherwise solving raises after the reported output dimension has changed, *)
Theorem C110_dual_refuted :
  forall (F : Type) (orth : nat -> nat -> @tensor F)
    (eig : nat -> list F * @tensor F) (small : F -> bool) (fact : F -> F) (s : kpca F) n q,
    v_total (k_view s) = Some n -> v_idx (k_view s) = whole n -> good_eig eig n -> q <= n ->
    v_out (k_view s) = Some q -> matrix n q (p_val (v_dual (k_view s))) -> 0 < n * q ->
    let v := fst (eig q) in List.length (kept small v) <> q -> List.length (kept small v) <> 1 ->
    fst (solve_dual orth eig small fact s) = Err ERuntimeError /\
    k_vals (snd (solve_dual orth eig small fact s)) = k_vals s /\
    v_dual (k_view (snd (solve_dual orth eig small fact s))) = v_dual (k_view s) /\
    v_out (k_view (snd (solve_dual orth eig small fact s))) = Some (List.length (kept small v)).
Proof. exact @solve_dual_pruned. Qed.
Print Assumptions C110_dual_refuted.
(** or, with one component kept, repeats it. *)
Theorem C110_dual_one_refuted :
  forall (F : Type) (orth : nat -> nat -> @tensor F)
    (eig : nat -> list F * @tensor F) (small : F -> bool) (fact : F -> F) (s : kpca F) n q,
    v_total (k_view s) = Some n -> v_idx (k_view s) = whole n -> good_eig eig n -> q <= n ->
    v_out (k_view s) = Some q -> matrix n q (p_val (v_dual (k_view s))) -> 0 < n * q ->
    let v := fst (eig q) in List.length (kept small v) = 1 ->
    fst (solve_dual orth eig small fact s) = Ok tt /\
    v_out (k_view (snd (solve_dual orth eig small fact s))) = Some 1 /\
    exists t, get_dual (k_view (snd (solve_dual orth eig small fact s))) = Ok t /\ t_cols t = q /\
      Forall (fun r => exists x, r = repeat x q) (t_rows t).
Proof. exact @solve_dual_pruned_one. Qed.
Print Assumptions C110_dual_one_refuted.

(** The values [0, 1, 2, ...] and vectors of ones; the value 0 is small. *)
Example C110_nontrivial :
  let eig := fun q => (seq 0 q, ones 4 q) in let small := fun x => Nat.eqb x 0 in
  let s := Kpca (View 2 (Some 4) (whole 4) (Err EExplicit) (Some 3) (Param 0 (ones 4 3)) (Param 1 empty_tensor) None) [] in
  good_eig eig 4 /\ matrix 4 3 (ones 4 3) /\ kept small (fst (eig 3)) = [1; 2] /\
  fst (solve_dual ones eig small S s) = Err ERuntimeError.
Proof.
  split; [intros q _; split; [apply seq_length|apply ones_ok]|]. split; [apply ones_ok|]. split; reflexivity.
Qed.

(** * C111 *)

Theorem C111_dual_partial : forall (F : Type) (s : view F), unset (get_dual (set_dual s None)).
Proof. exact @unset_dual. Qed.
Print Assumptions C111_dual_partial.
(** Unsetting the primal variables has no effect on them. *)
Theorem C111_primal_refuted : forall (F : Type) (s : view F), get_primal (snd (set_primal s None)) = get_primal s.
Proof. exact @unset_primal. Qed.
Print Assumptions C111_primal_refuted.

Example C111_nontrivial :
  let s := View 2 (Some 2) (whole 2) (Ok 1) (Some 1) (Param 0 (Tensor 1 [[1]; [2]])) (Param 1 (Tensor 1 [[5]])) None in
  ~ unset (get_dual s) /\ ~ unset (get_primal s).
Proof. split; intros H; discriminate H. Qed.

(** * C112 *)

(** After any history the hidden variables have the announced number of columns. *)
Theorem C112_dual_partial :
  forall (F : Type) (orth : nat -> nat -> @tensor F) primal total idx feat out weight hidden s os t,
    construct orth primal total idx feat out weight hidden = Ok s ->
    get_dual (vrun orth s os) = Ok t -> v_out (vrun orth s os) = Some (t_cols t).
Proof. exact @dual_dimension. Qed.
Print Assumptions C112_dual_partial.
(** The weights keep their size when another output dimension is set. *)
Theorem C112_primal_refuted :
  forall (F : Type) (s : view F) w q, get_primal s = Ok w ->
    get_primal (set_dim_output s q) = Ok w /\ v_out (set_dim_output s q) = Some q.
Proof. exact @primal_dimension. Qed.
Print Assumptions C112_primal_refuted.
(** An initialisation that is accepted had an output dimension, and leaves variables with as many
    columns as the dimension it reports. *)
Theorem C112_initialised :
  forall (F : Type) (orth : nat -> nat -> @tensor F) primal s s',
    init_parameters orth primal true s = (Ok tt, s') ->
    (exists q, v_out s = Some q) /\ v_out s' = Some (t_cols (p_val (if primal then v_primal s' else v_dual s'))).
Proof. intros F. exact initialised. Qed.
Print Assumptions C112_initialised.
Example C112_initialised_nontrivial :
  exists s s', construct ones true (Some 2) (whole 2) (Ok 3) (Some 2) None None = Ok s /\
    init_parameters ones true true s = (Ok tt, s') /\ v_out s' = Some 2.
Proof. eexists. eexists. split; [reflexivity|]. split; reflexivity. Qed.

Example C112_nontrivial :
  exists s, construct ones false (Some 2) (whole 2) (Ok 1) None None (Some (Tensor 1 [[1]; [2]])) = Ok s /\
    get_dual (vrun ones s [VUpdateDual (Tensor 1 [[7]; [8]]); VSetDim 2; VInit false true]) = Ok (ones 2 2).
Proof. eexists. split; reflexivity. Qed.

(** * C113 *)

Theorem C113_dual_partial :
  forall (F : Type) (s : view F) t, exists_ (v_dual s) = true -> rows t = rows (p_val (v_dual s)) ->
    cols t = cols (p_val (v_dual s)) ->
    p_id (v_dual (set_dual s (Some t))) = p_id (v_dual s) /\ p_val (v_dual (set_dual s (Some t))) = t.
Proof. exact @dual_identity. Qed.
Print Assumptions C113_dual_partial.
Theorem C113_primal_square_partial :
  forall (F : Type) (s : view F) t, v_attached s = None -> exists_ (v_primal s) = true -> rows t = rows (p_val (v_primal s)) ->
    cols t = cols (p_val (v_primal s)) -> rows t = cols t -> p_id (v_primal (snd (set_primal s (Some t)))) = p_id (v_primal s).
Proof. exact @primal_identity_square. Qed.
Print Assumptions C113_primal_square_partial.
(** In any reachable state, weights that are not square are replaced by another parameter. *)
Theorem C113_primal_refuted :
  forall (F : Type) (orth : nat -> nat -> @tensor F) primal total idx feat out weight hidden s0 os t,
    construct orth primal total idx feat out weight hidden = Ok s0 ->
    let s := vrun orth s0 os in
    v_attached s = None -> exists_ (v_primal s) = true -> rows t = rows (p_val (v_primal s)) -> cols t = cols (p_val (v_primal s)) ->
    rows t <> cols t ->
    fst (set_primal s (Some t)) = Ok tt /\ get_primal (snd (set_primal s (Some t))) = Ok t /\
    p_id (v_primal (snd (set_primal s (Some t)))) <> p_id (v_primal s).
Proof. exact @primal_identity. Qed.
Print Assumptions C113_primal_refuted.

Example C113_nontrivial :
  exists s, construct ones true (Some 2) (whole 2) (Ok 3) (Some 2) None None = Ok s /\
    v_attached s = None /\ exists_ (v_primal s) = true /\ p_val (v_primal s) = ones 3 2.
Proof. eexists. split; [reflexivity|]. repeat split. Qed.

(** * C114 *)

(** Variables given at construction are replaced by random ones, *)
Theorem C114_hidden_refuted :
  forall (F : Type) (orth : nat -> nat -> @tensor F) n idx feat out h,
  exists s, construct orth false (Some n) idx feat out None (Some h) = Ok s /\ p_val (v_dual s) = orth n (cols h).
Proof. exact @construct_hidden. Qed.
Print Assumptions C114_hidden_refuted.
Theorem C114_weight_refuted :
  forall (F : Type) (orth : nat -> nat -> @tensor F), (forall n q, matrix n q (orth n q)) ->
  forall total idx d out w, 0 < rows w * cols w -> 0 < d ->
  exists s, construct orth true total idx (Ok d) out (Some w) None = Ok s /\ p_val (v_primal s) = orth d (cols w).
Proof. exact @construct_weight. Qed.
Print Assumptions C114_weight_refuted.
(** or come with random variables of the other kind; *)
Theorem C114_weight_dual_refuted :
  forall (F : Type) (orth : nat -> nat -> @tensor F), (forall n q, matrix n q (orth n q)) ->
  forall n feat out w, 0 < rows w * cols w -> 0 < n ->
  exists s, construct orth false (Some n) (whole n) feat out (Some w) None = Ok s /\
    get_primal s = Ok w /\ get_dual s = Ok (orth n (cols w)).
Proof. exact @construct_both. Qed.
Print Assumptions C114_weight_dual_refuted.
(** they are kept when there is no sample. *)
Theorem C114_hidden_partial :
  forall (F : Type) (orth : nat -> nat -> @tensor F) idx feat out h,
  exists s, construct orth false None idx feat out None (Some h) = Ok s /\ p_val (v_dual s) = h.
Proof. exact @construct_hidden_kept. Qed.
Print Assumptions C114_hidden_partial.

Example C114_nontrivial : 0 < rows (ones 3 2) * cols (ones 3 2) /\ (forall n q, matrix n q (ones n q)) /\ ones 3 2 <> Tensor 2 [[1; 2]; [3; 4]; [5; 6]].
Proof. split; [cbn; lia|]. split; [exact ones_ok|discriminate]. Qed.

(** * C115 *)

Theorem C115_attached_partial :
  forall (F : Type) (s : view F) w, v_attached s = None -> fst (attach s w) = Ok tt /\ get_primal (snd (attach s w)) = Ok w.
Proof. exact @attach_reads. Qed.
Print Assumptions C115_attached_partial.
(** A view that is attached is not attached to anything else. *)
Theorem C115_once_partial :
  forall (F : Type) (s : view F) w w', v_attached s = Some w -> attach s w' = (Err EAssertionError, s).
Proof. exact @attach_once. Qed.
Print Assumptions C115_once_partial.
(** Detaching raises, and no history ends the attachment. *)
Theorem C115_detach_refuted :
  forall (F : Type) (s : view F) w, v_attached s = Some w -> detach s = (Err (EOther 1), s).
Proof. exact @detach_raises. Qed.
Print Assumptions C115_detach_refuted.
Theorem C115_forever_refuted :
  forall (F : Type) (orth : nat -> nat -> @tensor F) (s : view F) w os, v_attached s = Some w -> get_primal (vrun orth s os) = Ok w.
Proof. exact @attached_forever. Qed.
Print Assumptions C115_forever_refuted.

Example C115_nontrivial :
  let s := View 2 (Some 2) (whole 2) (Ok 1) (Some 1) (Param 0 empty_tensor) (Param 1 (Tensor 1 [[5]])) None in
  v_attached (snd (attach s (Tensor 1 [[9]]))) = Some (Tensor 1 [[9]]) /\ get_primal s <> Ok (Tensor 1 [[9]]).
Proof. split; [reflexivity|discriminate]. Qed.
