(** Property theorems C63, C64, C118, C119, C122, C123: the levels with targets. *)
From Verif Require Import Base RVec RVecProofs Center CenterProofs Ctor CtorProofs.
Open Scope R_scope.

(** * C63 *)

(** With a number of outputs that is neither one nor the number of points, the hook raises
    and nothing is centered. *)
Theorem C63_other_sizes_refuted :
  forall n (d : mat), rect n d -> List.length d <> 1%nat -> List.length d <> n ->
    after_step n (Some d) = (Err ERuntimeError, Some d).
Proof. exact other_sizes. Qed.
Print Assumptions C63_other_sizes_refuted.

(** With as many outputs as points, the result is centered exactly if all outputs had the
    same sum to begin with. *)
Theorem C63_square_refuted :
  forall n (d : mat), rect n d -> List.length d = n -> (0 < n)%nat ->
    exists d', after_step n (Some d) = (Ok tt, Some d') /\
      (centered d' <-> forall i j, (i < n)%nat -> (j < n)%nat -> sum (nth i d []) = sum (nth j d [])).
Proof. exact square_centered. Qed.
Print Assumptions C63_square_refuted.

(** With one output the values are centered; their differences do not change. *)
Theorem C63_single_output_partial :
  forall r : vec, r <> [] ->
    exists r', after_step (List.length r) (Some [r]) = (Ok tt, Some [r']) /\ sum r' = 0 /\ List.length r' = List.length r /\
      forall i j, (i < List.length r)%nat -> (j < List.length r)%nat -> nth i r' 0 - nth j r' 0 = nth i r 0 - nth j r 0.
Proof. exact single_output. Qed.
Print Assumptions C63_single_output_partial.

Example C63_nontrivial :
  rect 3 [[1; 2; 3]; [4; 5; 6]] /\ after_step 3 (Some [[1; 2; 3]; [4; 5; 6]]) = (Err ERuntimeError, Some [[1; 2; 3]; [4; 5; 6]]) /\
  sum (nth 0 [[1; 2]; [3; 4]] []) <> sum (nth 1 [[1; 2]; [3; 4]] []).
Proof.
  split; [repeat constructor|]. split; [apply other_sizes; [repeat constructor|discriminate|discriminate]|].
  cbn. lra.
Qed.

(** * C64 *)

(** An LS-SVM can only be created when the bias it is documented to have is refused. *)
Theorem C64_lssvm_refuted :
  forall a, a_requires_bias a <> Some false -> create Lssvm a = Err EAttributeError.
Proof. exact lssvm_default. Qed.
Print Assumptions C64_lssvm_refuted.

(** A ridge regression can be created, but no solve ever succeeds on any data. *)
Theorem C64_ridge_refuted :
  forall a o l s t p, create RidgeRegression a = Ok o -> solved_points (crun o l) s <> None ->
    is_ok (fst (solve (crun o l) s t p)) = false.
Proof. exact ridge_never. Qed.
Print Assumptions C64_ridge_refuted.

Theorem C64_ridge_errors_refuted :
  (forall o n d, o_kind o = RidgeRegression -> fst (solve o (Some (n, d)) None (Some false)) = Err ETypeError) /\
  (forall o n, o_kind o = RidgeRegression -> o_total o = Some n -> o_num_idx o <> n ->
     solve o None None (Some false) = (Err ERuntimeError, o)).
Proof. exact (conj ridge_error ridge_part_error). Qed.
Print Assumptions C64_ridge_errors_refuted.
(** Without any sample, solving does nothing and does not raise. *)
Theorem C64_no_points_refuted : forall o p, o_total o = None -> solve o None None p = (Ok tt, o).
Proof. exact no_points. Qed.
Print Assumptions C64_no_points_refuted.

(** Nor does solving in primal, for either level. *)
Theorem C64_primal_refuted :
  forall o s t, solved_points o s <> None -> is_ok (fst (solve o s t (Some true))) = false.
Proof. exact primal_solve. Qed.
Print Assumptions C64_primal_refuted.

(** No multi-view level can be created. *)
Theorem C64_multiview_refuted : forall views, is_ok (create_multiview views) = false.
Proof. exact (fun _ => eq_refl). Qed.
Print Assumptions C64_multiview_refuted.

(** Without the bias, an LS-SVM in dual is created and solved on consistent data. *)
Theorem C64_lssvm_dual_partial :
  forall a n q, a_requires_bias a = Some false -> a_primal a = false -> consistent a n q ->
    exists o, create Lssvm a = Ok o /\ fst (solve o None None None) = Ok tt /\
      let o' := snd (solve o None None None) in
      o_dual o' = Some n /\ o_bias o' = true /\ o_target o' = Some (n, q) /\ o_dim_output o' = Some q.
Proof. exact lssvm_solved. Qed.
Print Assumptions C64_lssvm_dual_partial.

(** A created level has selected all its points.  Once the number of outputs is known it has weights
    in primal, and a dual variable for each of its points in dual. *)
Theorem C64_created_partial :
  forall k a o, create k a = Ok o ->
    (forall n d, a_sample a = Some (n, d) -> o_total o = Some n /\ o_num_idx o = n) /\
    (a_sample a = None -> o_total o = None /\ o_num_idx o = 0%nat) /\
    ((a_dim_output a <> None \/ a_target a <> None) ->
       (a_primal a = true -> o_weights o = true /\ o_dual o = None) /\
       (a_primal a = false -> o_weights o = false /\ o_dual o = o_total o)).
Proof.
  intros k a o H. unfold create in H. destruct (requires k a); [discriminate H|].
  destruct a as [rb d s t p]. cbn [a_requires_bias a_dim_output a_sample a_target a_primal] in *.
  destruct t as [[m q]|], d as [d|], s as [[n w]|]; cbn [set_target o_total o_dim_output] in H;
    try discriminate H; repeat match type of H with context [if negb ?b then _ else _] => destruct b; cbn [negb] in H end; try discriminate H;
    injection H as <-; unfold init_parameters; destruct p; cbn;
    (split; [intros n0 d0 E0; first [discriminate E0 | injection E0 as <- <-; split; reflexivity]|]);
    (split; [intros E0; first [discriminate E0 | split; reflexivity]|]);
    intros [C|C]; try (now elim C); split; intros E0; first [discriminate E0 | split; reflexivity].
Qed.
Print Assumptions C64_created_partial.
(** Whatever the level, after a solve that succeeded on some points it has dual variables and a bias. *)
Theorem C64_solved_partial :
  forall o s t p n, fst (solve o s t p) = Ok tt -> solved_points o s = Some n ->
    let o' := snd (solve o s t p) in
    o_bias o' = true /\ exists r, o_dual o' = Some r /\ (r = n \/ n = 1%nat).
Proof.
  intros o s t p n H S. cbv zeta. unfold solve in *.
  set (o1 := match s with Some (n, _) => with_sample o n n | None => o end) in *.
  assert (T1 : o_total o1 = Some n) by (subst o1; destruct s as [[n0 d0]|]; exact S).
  clearbody o1. destruct (match t with None => _ | Some _ => _ end) as [u|e]; [|discriminate H].
  destruct (set_target o1 t) as [r o2] eqn:E.
  assert (T2 : o_total o2 = Some n).
  { unfold set_target in E. destruct t as [[m q]|]; [|injection E as _ <-; exact T1]. rewrite T1 in E.
    destruct (o_dim_output o1) as [d|]; [|injection E as _ <-; exact T1].
    destruct (negb (Nat.eqb d q)); [injection E as _ <-; exact T1|].
    destruct (negb (Nat.eqb n m)); injection E as _ <-; exact T1. }
  destruct r as [[]|e]; [|discriminate H]. rewrite T2 in *.
  destruct (match p with Some b => b | None => o_primal o2 end); [discriminate H|].
  unfold solve_dual in *. destruct (o_kind o2); [|discriminate H].
  destruct (o_dim_output o2); [|discriminate H]. destruct (o_target o2) as [[m q]|]; [|discriminate H].
  destruct (Nat.ltb m (o_num_idx o2)); [discriminate H|]. destruct (negb (Nat.eqb (o_num_idx o2) n)); [discriminate H|].
  assert (D : forall o3, update_dual o2 n = (Ok tt, o3) -> exists r, o_dual o3 = Some r /\ (r = n \/ n = 1%nat)).
  { intros o3 U. unfold update_dual in U. destruct (o_dual o2) as [r|] eqn:Er.
    - destruct (Nat.eqb_spec n r) as [Q|Q]; cbn [orb] in U.
      + injection U as <-. exists r. split; [exact Er|now left].
      + destruct (Nat.eqb_spec n 1) as [Q1|Q1]; [|discriminate U]. injection U as <-. exists r. split; [exact Er|now right].
    - injection U as <-. exists n. split; [reflexivity|now left]. }
  destruct (update_dual o2 n) as [[[]|e] o3]; [|discriminate H]. destruct (D o3 eq_refl) as (r & Er & Qr).
  unfold set_bias in *. destruct (o_bias o3) eqn:Eb; [split; [exact Eb|exists r; split; assumption]|].
  destruct (o_requires o3); [discriminate H|]. split; [reflexivity|]. exists r. split; assumption.
Qed.
Print Assumptions C64_solved_partial.

Example C64_nontrivial :
  consistent (Args (Some false) None (Some (5, 2)) (Some (5, 1)) false)%nat 5 1 /\
  is_ok (create RidgeRegression (Args None None (Some (5, 2)) (Some (5, 1)) false)%nat) = true /\
  create Lssvm (Args None None (Some (5, 2)) (Some (5, 1)) false)%nat = Err EAttributeError.
Proof. split; [split; [exists 2%nat; reflexivity|split; [reflexivity|left; reflexivity]]|split; reflexivity]. Qed.

(** * C118 *)

(** Once a proper part of the sample is selected, an LS-SVM is not solved. *)
Theorem C118_selection_refuted :
  forall a o l k n, create Lssvm a = Ok o -> o_total (crun o l) = Some n -> (k < n)%nat ->
    is_ok (fst (solve (crun o (l ++ [CSelect k])) None None (Some false))) = false.
Proof. exact selected_never. Qed.
Print Assumptions C118_selection_refuted.
(** Selecting at least as many points as there are selects all of them, and the level is solved. *)
Theorem C118_all_partial :
  forall a n q k, a_requires_bias a = Some false -> a_primal a = false -> consistent a n q -> (n <= k)%nat ->
    exists o, create Lssvm a = Ok o /\ fst (solve (crun o [CSelect k]) None None None) = Ok tt /\
      o_dual (snd (solve (crun o [CSelect k]) None None None)) = Some n.
Proof. exact lssvm_solved_all. Qed.
Print Assumptions C118_all_partial.

Example C118_nontrivial :
  exists o, create Lssvm (Args (Some false) None (Some (5, 2)) (Some (5, 1)) false)%nat = Ok o /\ o_total (crun o [CSelect 4]) = Some 5%nat /\
    fst (solve (crun o [CSelect 3]) None None (Some false)) = Err ERuntimeError /\
    fst (solve (crun o [CSelect 5]) None None (Some false)) = Ok tt.
Proof. eexists. repeat split; reflexivity. Qed.

(** * C119 *)

(** The loss of an LS-SVM or of a ridge regression is never returned. *)
Theorem C119_loss_refuted : forall o primal, is_ok (read_loss o primal) = false.
Proof. exact no_loss. Qed.
Print Assumptions C119_loss_refuted.
Theorem C119_errors_refuted :
  forall o primal, read_loss o primal =
    Err (match o_total o with None => ETypeError | Some _ => if Nat.eqb (o_num_idx o) 0 then EDivisionByZero else EAttributeError end).
Proof. exact loss_errors. Qed.
Print Assumptions C119_errors_refuted.

Example C119_nontrivial :
  exists o, create Lssvm (Args (Some false) None (Some (5, 2)) (Some (5, 1)) false)%nat = Ok o /\
    fst (solve o None None None) = Ok tt /\ read_loss (snd (solve o None None None)) false = Err EAttributeError.
Proof. eexists. repeat split; reflexivity. Qed.

(** * C122 *)

(** Whatever happens to a created level, short of asking for a bias, its predictions leave the
    bias out, although solving computes one. *)
Theorem C122_bias_refuted :
  forall k a o l, create k a = Ok o -> Forall no_bias_request l -> forward_uses_bias (crun o l) <> Ok true.
Proof. exact bias_ignored. Qed.
Print Assumptions C122_bias_refuted.

(** Asking for one raises. *)
Theorem C122_request_refuted : forall o, fst (set_requires o true) = Err EAttributeError.
Proof. exact (fun _ => eq_refl). Qed.
Print Assumptions C122_request_refuted.
(** It then also breaks the predictions of a level that has not been solved. *)
Theorem C122_forced_refuted :
  forall o r, o_dual o = Some r -> o_bias o = false -> forward_uses_bias (snd (set_requires o true)) = Err ERuntimeError.
Proof. exact forced_bias. Qed.
Print Assumptions C122_forced_refuted.
(** The claim holds for a solved level that was asked for a bias, although asking raised an exception. *)
Theorem C122_asked_partial :
  forall o r, o_dual o = Some r -> o_bias o = true -> forward_uses_bias (snd (set_requires o true)) = Ok true.
Proof. exact asked_bias. Qed.
Print Assumptions C122_asked_partial.

Example C122_nontrivial :
  exists o, create Lssvm (Args (Some false) None (Some (5, 2)) (Some (5, 1)) false)%nat = Ok o /\
    o_bias (crun o [CSolve None None None]) = true /\ forward_uses_bias (crun o [CSolve None None None]) = Ok false /\
    forward_uses_bias (crun o [CSolve None None None; CRequires true]) = Ok true.
Proof. eexists. repeat split; reflexivity. Qed.

(** * C123 *)

(** A level with dual variables is not solved on a sample of another size than theirs, unless
    that is a single point. *)
Theorem C123_other_size_refuted :
  forall a o l r n d t, create Lssvm a = Ok o -> o_dual (crun o l) = Some r -> n <> r -> n <> 1%nat ->
    is_ok (fst (solve (crun o l) (Some (n, d)) t (Some false))) = false.
Proof. exact other_size_reachable. Qed.
Print Assumptions C123_other_size_refuted.

(** Solving on a single new point without a target succeeds with an old target. *)
Theorem C123_stale_target_refuted :
  forall o r m q d, o_kind o = Lssvm -> o_dual o = Some r -> o_dim_output o = Some q -> o_requires o = false -> o_target o = Some (S m, q) ->
    fst (solve o (Some (1%nat, d)) None (Some false)) = Ok tt /\ o_target (snd (solve o (Some (1%nat, d)) None (Some false))) = Some (S m, q) /\
    o_total (snd (solve o (Some (1%nat, d)) None (Some false))) = Some 1%nat.
Proof. exact stale_target. Qed.
Print Assumptions C123_stale_target_refuted.

(** With as many points as before and a target of the right size, it is solved. *)
Theorem C123_same_size_partial :
  forall o n d q, o_kind o = Lssvm -> o_dual o = Some n -> o_dim_output o = Some q -> o_requires o = false ->
    fst (solve o (Some (n, d)) (Some (n, q)) (Some false)) = Ok tt /\
    o_target (snd (solve o (Some (n, d)) (Some (n, q)) (Some false))) = Some (n, q).
Proof. exact same_size. Qed.
Print Assumptions C123_same_size_partial.

Example C123_nontrivial :
  exists o, create Lssvm (Args (Some false) None (Some (5, 2)) (Some (5, 1)) false)%nat = Ok o /\ o_dual o = Some 5%nat /\
    fst (solve o (Some (4, 2)%nat) (Some (4, 1)%nat) (Some false)) = Err ERuntimeError /\
    fst (solve o (Some (5, 2)%nat) (Some (5, 1)%nat) (Some false)) = Ok tt /\ o_kind o = Lssvm /\ o_requires o = false /\ o_target o = Some (5, 1)%nat.
Proof. eexists. repeat split; reflexivity. Qed.
