(** Property theorems C66, C67, C69, C70 and C127-C131: models made of levels. *)
From Verif Require Import Base Cache Tree ModuleTree Sample SampleSpec ModelState ModelSpec ModelProofs ModelForward ModelForwardSpec ModelForwardProofs Reports ReportsProofs.
Open Scope string_scope.
Open Scope nat_scope.
Open Scope list_scope.

(** * C66 *)

(** Through every history of appended levels, initialisations and solves of full rank, the levels
    fit together. *)
Theorem C66_histories_partial :
  forall os, full_rank_history [] os -> fits_together (mrun [] os).
Proof. exact (fun os => run_fits os [] empty_fits). Qed.
Print Assumptions C66_histories_partial.

(** A rejected level leaves the model unchanged. *)
Theorem C66_rejected :
  forall m a e m', append_level m a = (Err e, m') -> m' = m.
Proof. exact append_err. Qed.
Print Assumptions C66_rejected.

(** A level whose input dimension is not the output dimension of the last one is rejected. *)
Theorem C66_misfit :
  forall m a p q d,
    last_level m = Some p -> lv_out p = Some q ->
    match g_sample a with Some (_, d') => Some d' | None => g_in a end = Some d -> d <> q ->
    exists e, append_level m a = (Err e, m).
Proof. exact append_misfit. Qed.
Print Assumptions C66_misfit.

(** Solving the first of several levels breaks the model when there are fewer points than
    components, or when components are dropped. *)
Theorem C66_solve_refuted :
  forall l l' m pruned n q, fits_together (l :: l' :: m) ->
    lv_primal l = false -> lv_total l = Some n -> lv_out l = Some q -> Nat.min q n - pruned <> q ->
    ~ fits_together (mrun (l :: l' :: m) [MSolve 0 pruned]).
Proof. exact solve_breaks. Qed.
Print Assumptions C66_solve_refuted.

Example C66_nontrivial :
  let feat := fun i : option nat => match i with Some d => Ok d | None => Err ENotInitialized end in
  let first n := LArgs (Some "kpca") None None (Some 3) None (Some (n, 4)) false feat None false in
  let second := LArgs (Some "kpca") None None (Some 2) None None false feat None false in
  let misfit := LArgs (Some "kpca") None (Some 5) (Some 2) None None false feat None false in
  let build n := [MAppend (first n); MAppend second; MAppend misfit; MInitLevels; MSolve 0 0] in
  map lv_out (mrun [] (build 6)) = [Some 3; Some 2] /\ map lv_in (mrun [] (build 6)) = [Some 4; Some 3] /\
  map lv_out (mrun [] (build 2)) = [Some 2; Some 2] /\ map lv_in (mrun [] (build 2)) = [Some 4; Some 3].
Proof. repeat split; reflexivity. Qed.
Example C66_nontrivial_history :
  let feat := fun i : option nat => match i with Some d => Ok d | None => Err ENotInitialized end in
  let first := LArgs (Some "kpca") None None (Some 3) None (Some (6, 4)) false feat None false in
  let second := LArgs (Some "kpca") None None (Some 2) None None false feat None false in
  full_rank_history [] [MAppend first; MAppend second; MInitLevels; MSolve 0 0; MSolve 1 0].
Proof.
  do 3 (split; [exact I|]). split.
  - intros l H. injection H as <-. split; [reflexivity|]. exists 3. split; [reflexivity|].
    intros n H. cbn in H. injection H as <-. lia.
  - split; [|exact I]. intros l H. injection H as <-. split; [reflexivity|]. exists 2. split; [reflexivity|].
    intros n H. cbn in H. injection H as <-. lia.
Qed.

(** * C67 *)

(** In evaluation mode, a model returns [z] exactly when calling its levels one after the other
    gives [z], and is unchanged. *)
Theorem C67_evaluation :
  forall (F V P : Type) (B : behaviour F P) (m : fmodel F V P) x z,
    fm_training m = false ->
    (fst (forward B m x) = Ok z <-> composed B x (fm_levels m) z) /\ snd (forward B m x) = m.
Proof. exact @evaluation. Qed.
Print Assumptions C67_evaluation.

(** Putting levels one after the other composes the models. *)
Theorem C67_composition :
  forall (F V P : Type) (B : behaviour F P) (ls1 ls2 : list (flevel F V P)) x,
    eval_forward B x (ls1 ++ ls2) = bind (eval_forward B x ls1) (fun y => eval_forward B y ls2).
Proof. exact @eval_app. Qed.
Print Assumptions C67_composition.

(** In training mode, the sample of each deeper level gets the output of the level above at the
    selected rows, and keeps its other rows. *)
Theorem C67_training_rows :
  forall (F V P : Type) (B : behaviour F P) idx (ls : list (flevel F V P)) x r ls',
    train_forward B (Some idx) x ls = (Ok r, ls') ->
    forall i n l' n', nth_error ls (S i) = Some n -> nth_error ls' i = Some l' -> nth_error ls' (S i) = Some n' ->
    exists y, call_own B l' = Ok y /\ rows_written (fl_state n) (fl_state n') idx y.
Proof. exact @train_rows. Qed.
Print Assumptions C67_training_rows.

(** The sample of the first level is unchanged, and the output of the last one is returned. *)
Theorem C67_training_first :
  forall (F V P : Type) (B : behaviour F P) idx (l : flevel F V P) ls r ls',
    train_forward B idx None (l :: ls) = (Ok r, ls') ->
    exists l' ls2, ls' = l' :: ls2 /\ ss_sample (fl_state l') = ss_sample (fl_state l).
Proof. exact @train_first. Qed.
Print Assumptions C67_training_first.
Theorem C67_training_last :
  forall (F V P : Type) (B : behaviour F P) idx (ls : list (flevel F V P)) x l r ls',
    train_forward B idx x (ls ++ [l]) = (Ok r, ls') ->
    exists ls2 l' y, ls' = ls2 ++ [l'] /\ call_own B l' = Ok y /\ r = Some y.
Proof. exact @train_last. Qed.
Print Assumptions C67_training_last.

(** The soft-constrained levels keep their parameters, the others are solved on their new sample. *)
Theorem C67_training_parameters :
  forall (F V P : Type) (B : behaviour F P) idx (ls : list (flevel F V P)) x r ls',
    train_forward B idx x ls = (Ok r, ls') -> List.length ls' = List.length ls /\
    forall i l l', nth_error ls i = Some l -> nth_error ls' i = Some l' ->
      fl_soft l' = fl_soft l /\
      (fl_soft l = Some true -> fl_par l' = fl_par l) /\
      (fl_soft l = Some false -> b_solve B (fl_par l) (ss_sample (fl_state l')) (ss_idx (fl_state l')) = Ok (fl_par l')).
Proof. exact @train_params. Qed.
Print Assumptions C67_training_parameters.

(** These are the levels of the model after the call, which keeps its mode, selection and number of
    points. *)
Theorem C67_training_model :
  forall (F V P : Type) (B : behaviour F P) (m : fmodel F V P) x r m',
    fm_training m = true -> forward B m x = (r, m') ->
    train_forward B (fm_idx m) x (fm_levels m) = (r, fm_levels m') /\
    fm_training m' = true /\ fm_idx m' = fm_idx m /\ fm_num m' = fm_num m.
Proof.
  intros F V P B m x r m' T H. unfold forward in H. rewrite T in H.
  destruct (train_forward B (fm_idx m) x (fm_levels m)) as [r0 ls]. injection H as <- <-. repeat split.
Qed.
Print Assumptions C67_training_model.

(** * C130 *)

(** When all points are selected and the outputs have the expected widths, evaluating the model
    right after a training pass gives what the pass returned. *)
Theorem C130_full_pass :
  forall (F V P : Type) (B : behaviour F P), own_consistent B -> forall (l : flevel F V P) ls r ls',
    train_forward B None None (l :: ls) = (Ok r, ls') ->
    Forall all_selected ls -> wide_enough B ls' ->
    eval_forward B None ls' = Ok r.
Proof. exact @full_pass_agrees. Qed.
Print Assumptions C130_full_pass.
(** The same for the model: with the levels it has after the call, evaluation returns the same. *)
Theorem C130_model_pass :
  forall (F V P : Type) (B : behaviour F P), own_consistent B -> forall (m : fmodel F V P) l ls r m',
    fm_training m = true -> fm_idx m = None -> fm_levels m = l :: ls -> Forall all_selected ls ->
    forward B m None = (Ok r, m') -> wide_enough B (fm_levels m') ->
    fst (forward B (FModel false (fm_idx m') (fm_num m') (fm_levels m')) None) = Ok r.
Proof.
  intros F V P B O m l ls r m' T I L A H W. destruct (C67_training_model F V P B m None (Ok r) m' T H) as (E & _).
  rewrite I, L in E. exact (full_pass_agrees B O l ls r (fm_levels m') E A W).
Qed.
Print Assumptions C130_model_pass.

(** Two levels that double and add their parameter: the second sample gets the outputs of the
    first one at the selected row. *)
Example C67_nontrivial :
  let B := Behaviour (F:=nat) (P:=nat) (fun p _ _ => Ok (S p))
     (fun p t i => Ok (Tensor 1 (map (map (fun v => 2 * v + p)) (match i with Some [k] => firstn 1 (skipn (Z.to_nat k) (t_rows t)) | _ => t_rows t end))))
     (fun p _ _ x => Ok (Tensor 1 (map (map (fun v => 2 * v + p)) (t_rows x)))) in
  let st rows := SState (F := nat) (V := nat) (Tensor 1 rows) (Some 2%Z) (Some 1%Z) (Some [1%Z]) false None (init_cache (LInt 0)) in
  let ls := [FLevel (st [[5]; [7]]) 0 (Some false); FLevel (st [[0]; [0]]) 3 (Some true)] in
  let '(r, ls') := train_forward B (Some [1%Z]) None ls in
  r = Ok (Some (Tensor 1 [[33]])) /\ map (fun l => t_rows (ss_sample (fl_state l))) ls' = [[[5]; [7]]; [[0]; [15]]] /\
  map fl_par ls' = [1; 3] /\
  eval_forward B (Some (Tensor 1 [[10]])) ls' = Ok (Some (Tensor 1 [[45]])).
Proof. vm_compute. repeat split; reflexivity. Qed.
Example C130_nontrivial :
  let B := Behaviour (F:=nat) (P:=nat) (fun p _ _ => Ok (S p))
     (fun p t i => Ok (Tensor 1 (map (map (fun v => 2 * v + p)) (t_rows t))))
     (fun p _ _ x => Ok (Tensor 1 (map (map (fun v => 2 * v + p)) (t_rows x)))) in
  let st rows := SState (F := nat) (V := nat) (Tensor 1 rows) (Some 2%Z) (Some 1%Z) (Some [0%Z; 1%Z]) false None (init_cache (LInt 0)) in
  let ls := [FLevel (st [[5]; [7]]) 0 (Some false); FLevel (st [[0]; [0]]) 3 (Some true)] in
  own_consistent B /\ Forall all_selected (skipn 1 ls) /\
  let '(r, ls') := train_forward B None None ls in
  r = Ok (Some (Tensor 1 [[25]; [33]])) /\ wide_enough B ls' /\ eval_forward B None ls' = r.
Proof.
  split; [intros p t; reflexivity|]. split; [constructor; [split; reflexivity | constructor]|].
  vm_compute train_forward. split; [reflexivity|]. split; [|reflexivity].
  intros i l l' y A C D. destruct i as [|[|i]]; [|discriminate C|destruct i; discriminate C].
  injection A as <-. injection C as <-. injection D as <-. split; [|reflexivity].
  intros row [<-|[<-|[]]]; reflexivity.
Qed.

(** * C69 *)

(** With two levels or more, the second initialisation always fails. *)
Theorem C69_second_refuted :
  forall l x ls n d m1 n' d',
    init_training (l :: x :: ls) n d = (Ok tt, m1) ->
    fst (init_training m1 n' d') = Err EAssertionError.
Proof. exact train_twice_fails. Qed.
Print Assumptions C69_second_refuted.

(** With a single level it succeeds. *)
Theorem C69_single_level_partial :
  forall l n d m1 n' d',
    init_training [l] n d = (Ok tt, m1) -> fst (init_training m1 n' d') = Ok tt.
Proof. exact train_once_more. Qed.
Print Assumptions C69_single_level_partial.

Example C69_nontrivial :
  let feat := fun i : option nat => match i with Some d => Ok d | None => Err ENotInitialized end in
  let first := LArgs (Some "kpca") None (Some 4) (Some 3) None None false feat None false in
  let second := LArgs (Some "kpca") None None (Some 2) None None false feat None false in
  let one := mrun [] [MAppend first] in
  let two := mrun [] [MAppend first; MAppend second] in
  fst (init_training one 6 4) = Ok tt /\ fst (init_training two 6 4) = Ok tt.
Proof. repeat split; reflexivity. Qed.

(** * C70 and C127 *)

(** A level added with the soft constraint is handed to the optimiser exactly when it is in dual
    and was created with its data, or when the constructor was told so. *)
Theorem C70_exactly :
  forall m a m1 n d m2,
    append_level m a = (Ok tt, m1) -> init_training m1 n d = (Ok tt, m2) -> soft_constraint a ->
    exists l, nth_error m2 (List.length m) = Some l /\
      (optimised l = true <-> ((g_primal a = false /\ with_data a) \/ g_kw a = true)).
Proof. exact soft_optimised_kw. Qed.
Print Assumptions C70_exactly.

(** Hence a level in primal, or whose data come later, is not trained. *)
Theorem C70_refuted :
  forall m a m1 n d m2,
    append_level m a = (Ok tt, m1) -> init_training m1 n d = (Ok tt, m2) -> soft_constraint a ->
    g_kw a = false -> g_primal a = true \/ ~ with_data a ->
    exists l, nth_error m2 (List.length m) = Some l /\ optimised l = false.
Proof. exact soft_not_optimised. Qed.
Print Assumptions C70_refuted.

(** The levels in dual that are given their data are. *)
Theorem C70_trained_partial :
  forall m a m1 n d m2,
    append_level m a = (Ok tt, m1) -> init_training m1 n d = (Ok tt, m2) -> soft_constraint a ->
    (g_primal a = false /\ with_data a) \/ g_kw a = true ->
    exists l, nth_error m2 (List.length m) = Some l /\ optimised l = true.
Proof. exact soft_optimised. Qed.
Print Assumptions C70_trained_partial.

(** A level added with the hard constraint is kept from the optimiser exactly when it is in dual
    and was created with its data, or when the constructor was told so. *)
Theorem C127_exactly :
  forall m a m1 n d m2,
    append_level m a = (Ok tt, m1) -> init_training m1 n d = (Ok tt, m2) -> g_constraint a = Some "hard" ->
    exists l, nth_error m2 (List.length m) = Some l /\
      (optimised l = false <-> ((g_primal a = false /\ with_data a) \/ g_kw a = false)).
Proof. exact hard_optimised_kw. Qed.
Print Assumptions C127_exactly.
Theorem C127_refuted :
  forall m a m1 n d m2,
    append_level m a = (Ok tt, m1) -> init_training m1 n d = (Ok tt, m2) -> g_constraint a = Some "hard" ->
    g_kw a = true -> g_primal a = true \/ ~ with_data a ->
    exists l, nth_error m2 (List.length m) = Some l /\ optimised l = true.
Proof. exact hard_optimised. Qed.
Print Assumptions C127_refuted.
Theorem C127_default_partial :
  forall m a m1 n d m2,
    append_level m a = (Ok tt, m1) -> init_training m1 n d = (Ok tt, m2) -> g_constraint a = Some "hard" ->
    g_kw a = false ->
    exists l, nth_error m2 (List.length m) = Some l /\ optimised l = false.
Proof. exact hard_not_optimised. Qed.
Print Assumptions C127_default_partial.

Example C70_nontrivial :
  let feat := fun i : option nat => match i with Some d => Ok d | None => Err ENotInitialized end in
  let arg c smp primal kw := LArgs (Some "kpca") c (Some 4) (Some 3) None smp primal feat None kw in
  let trained a := map optimised (snd (init_training (snd (append_level [] a)) 6 4)) in
  trained (arg None None false false) = [false] /\ trained (arg (Some "soft") (Some (6, 4)) true false) = [false] /\
  trained (arg None (Some (6, 4)) false false) = [true] /\ trained (arg None None true true) = [true] /\
  trained (arg (Some "hard") None false true) = [true] /\ trained (arg (Some "hard") None false false) = [false] /\
  trained (arg (Some "hard") (Some (6, 4)) false true) = [false].
Proof. repeat split; reflexivity. Qed.

Example C127_nontrivial :
  let feat := fun i : option nat => match i with Some d => Ok d | None => Err ENotInitialized end in
  let arg smp primal kw := LArgs (Some "kpca") (Some "hard") (Some 4) (Some 3) None smp primal feat None kw in
  let trained a := let '(r1, m1) := append_level [] a in let '(r2, m2) := init_training m1 6 4 in (r1, r2, map optimised m2) in
  with_data (arg (Some (6, 4)) false true) /\ ~ with_data (arg None false true) /\
  trained (arg (Some (6, 4)) false true) = (Ok tt, Ok tt, [false]) /\ trained (arg None false true) = (Ok tt, Ok tt, [true]) /\
  trained (arg (Some (6, 4)) true true) = (Ok tt, Ok tt, [true]) /\ trained (arg (Some (6, 4)) true false) = (Ok tt, Ok tt, [false]).
Proof.
  cbv zeta. split; [left; reflexivity |]. split; [intros [H | [_ H]]; vm_compute in H; discriminate H |].
  vm_compute. repeat split.
Qed.

(** * C128 *)

(** Contrary to levels, models return nothing from [train()] and [eval()]. *)
Theorem C128_returns_refuted :
  forall (F V P : Type) (m : fmodel F V P) (l : flevel F V P) mode,
    fst (train_model m mode) = RNone /\ fst (train_level l mode) = RLevel (snd (train_level l mode)).
Proof. exact @train_returns. Qed.
Print Assumptions C128_returns_refuted.

(** The mode is set, though. *)
Theorem C128_mode_partial :
  forall (F V P : Type) (m : fmodel F V P) mode, fm_training (snd (train_model m mode)) = mode.
Proof. exact @train_mode_set. Qed.
Print Assumptions C128_mode_partial.

Example C128_nontrivial :
  let s := SState (Tensor 1 [[5]; [6]; [7]]) (Some 3%Z) (Some 1%Z) (Some [2%Z; 0%Z]) false None (init_cache (LStr "normal") : cache nat) in
  let m := FModel true (Some [1%Z]) None [FLevel s tt (Some true)] in
  fst (train_model m false) = RNone /\ fm_training m = true /\ fm_training (snd (train_model m false)) = false /\
  fst (train_level (FLevel s tt (Some true)) true) = RLevel (FLevel s tt (Some true)).
Proof. repeat split; reflexivity. Qed.

(** * C129 *)

(** Training a level in dual on another number of points keeps the variables of the first
    training. *)
Theorem C129_stale_refuted :
  forall l n d n' d' m1 m2, init_training [l] n d = (Ok tt, m1) ->
    lv_primal l = false -> lv_dual l = None -> init_training m1 n' d' = (Ok tt, m2) ->
    exists l2 p, m2 = [l2] /\ lv_total l2 = Some n' /\ lv_dual l2 = Some p /\ p_rows p = n.
Proof. exact stale_rows. Qed.
Print Assumptions C129_stale_refuted.

(** The first training creates one row per point. *)
Theorem C129_first_partial :
  forall l n d m1, init_training [l] n d = (Ok tt, m1) -> lv_primal l = false -> lv_dual l = None ->
    exists l1 p, m1 = [l1] /\ lv_dual l1 = Some p /\ p_rows p = n.
Proof. exact fresh_rows. Qed.
Print Assumptions C129_first_partial.

Example C129_nontrivial :
  let feat := fun i : option nat => match i with Some d => Ok d | None => Err ENotInitialized end in
  let one := mrun [] [MAppend (LArgs (Some "kpca") None (Some 4) (Some 3) None None false feat None false)] in
  let m1 := snd (init_training one 6 4) in
  let m2 := snd (init_training m1 9 4) in
  map lv_dual one = [None] /\ map lv_dual m1 = [Some (Param 6 3 false)] /\
  map lv_dual m2 = [Some (Param 6 3 false)] /\ map lv_total m2 = [Some 9].
Proof. repeat split; reflexivity. Qed.

(** * C131 *)

(** Each entry of each level is reported under its own key, with its own value. *)
Theorem C131_reported :
  forall (V : Type) (levels : list (string * dict V)) i cls own k,
    nth_error levels i = Some (cls, own) -> NoDup (map fst own) ->
    dget (report levels) ("[LEVEL" ++ decimal i ++ " " ++ cls ++ "] " ++ k)%string = dget own k.
Proof. exact @report_get_key. Qed.
Print Assumptions C131_reported.

(** Nothing else is reported. *)
Theorem C131_nothing_else :
  forall (V : Type) (levels : list (string * dict V)) x, In x (map fst (report levels)) ->
    exists i cls own k, nth_error levels i = Some (cls, own) /\ In k (map fst own) /\
      x = ("[LEVEL" ++ decimal i ++ " " ++ cls ++ "] " ++ k)%string.
Proof. exact @report_keys_key. Qed.
Print Assumptions C131_nothing_else.

Example C131_nontrivial :
  report [("KPCA", [("eta", 1); ("kernel", 2)]); ("KPCA", [("eta", 3)]); ("LSSVM", [("eta", 4)])] =
  [("[LEVEL0 KPCA] eta", 1); ("[LEVEL0 KPCA] kernel", 2); ("[LEVEL1 KPCA] eta", 3); ("[LEVEL2 LSSVM] eta", 4)].
Proof. vm_compute. reflexivity. Qed.

(** * C148 *)

(** Solving a level again in dual, exactly: it succeeds when there are fewer points than
    components, or when the variables have the right numbers of points and of components (one
    point or one component being repeated); otherwise it raises. *)
Theorem C148_exact_partial :
  forall l p pruned n q, lv_primal l = false -> lv_total l = Some n -> lv_out l = Some q -> lv_dual l = Some p ->
    (fst (solve_level l pruned) = Ok tt <->
     n < q \/ ((p_rows p = n \/ n = 1) /\ (p_cols p = q - pruned \/ q - pruned = 1))) /\
    (fst (solve_level l pruned) <> Ok tt -> fst (solve_level l pruned) = Err ERuntimeError).
Proof. exact solve_again_dual. Qed.
Print Assumptions C148_exact_partial.

(** In primal it always succeeds, with at most as many components as features. *)
Theorem C148_primal_partial :
  forall l p pruned n d, lv_primal l = true -> lv_total l = Some n -> lv_weights l = Some p ->
    p_cols p <= p_rows p -> lv_feat l (lv_in l) = Ok d ->
    exists l1, solve_level l pruned = (Ok tt, l1) /\ lv_dual l1 = None /\
      exists q w, lv_out l1 = Some q /\ lv_weights l1 = Some w /\ p_rows w = d /\ p_cols w = q /\ q <= d.
Proof. exact solve_again_primal. Qed.
Print Assumptions C148_primal_partial.

(** A solved level cannot be solved on another number of points. *)
Theorem C148_points_refuted :
  forall l l1 l2 n q n' d', lv_primal l = false -> lv_total l = Some n -> lv_out l = Some q -> q <= n ->
    lv_dual l = None -> solve_level l 0 = (Ok tt, l1) -> init_sample [l1] n' d' = (Ok tt, [l2]) ->
    n' <> n -> n' <> 1 -> q <= n' -> forall pruned, fst (solve_level l2 pruned) = Err ERuntimeError.
Proof. exact solve_other_points. Qed.
Print Assumptions C148_points_refuted.

(** Nor when some of its components are pruned this time. *)
Theorem C148_pruned_refuted :
  forall l l1 n q pruned, lv_primal l = false -> lv_total l = Some n -> lv_out l = Some q -> q <= n ->
    lv_dual l = None -> solve_level l 0 = (Ok tt, l1) -> 0 < q -> 0 < pruned -> q - pruned <> 1 ->
    fst (solve_level l1 pruned) = Err ERuntimeError.
Proof. exact solve_pruned. Qed.
Print Assumptions C148_pruned_refuted.

Example C148_nontrivial :
  let l := Level (Some 2) (Some 3) (Some 6) true false (fun _ => Err EExplicit) None None false (Some false) true in
  let l1 := snd (solve_level l 0) in
  let l2 := with_total l1 (Some 7) true in
  lv_dual l1 = Some (Param 6 3 false) /\ fst (solve_level l1 0) = Ok tt /\
  fst (solve_level l1 1) = Err ERuntimeError /\ fst (solve_level l2 0) = Err ERuntimeError.
Proof. repeat split; reflexivity. Qed.

(** * C149 *)

(** In evaluation mode every level that has points uses all of them, in order, whatever was
    selected before; its points, parameters and constraint are unchanged. *)
Theorem C149_evaluation :
  forall (F V P : Type) (m : fmodel F V P),
    List.length (fm_levels (snd (train_model m false))) = List.length (fm_levels m) /\
    (forall n, fm_num m = Some n -> fm_idx (snd (train_model m false)) = Some (range n)) /\
    forall i l, nth_error (fm_levels (snd (train_model m false))) i = Some l ->
    exists l0, nth_error (fm_levels m) i = Some l0 /\ fl_par l = fl_par l0 /\ fl_soft l = fl_soft l0 /\
      ss_sample (fl_state l) = ss_sample (fl_state l0) /\ ss_num (fl_state l) = ss_num (fl_state l0) /\
      forall n, ss_num (fl_state l0) = Some n -> ss_idx (fl_state l) = Some (range n).
Proof. intros F V P m. split; [apply model_length|]. split; [apply model_selection | apply model_selected]. Qed.
Print Assumptions C149_evaluation.

(** Training mode keeps the selections. *)
Theorem C149_training :
  forall (F V P : Type) (m : fmodel F V P),
    fm_levels (snd (train_model m true)) = fm_levels m /\ fm_idx (snd (train_model m true)) = fm_idx m.
Proof. exact @model_training. Qed.
Print Assumptions C149_training.

Example C149_nontrivial :
  let s := SState (Tensor 1 [[5]; [6]; [7]]) (Some 3%Z) (Some 1%Z) (Some [2%Z; 0%Z]) false None (init_cache (LStr "normal") : cache nat) in
  let m := FModel true (Some [1%Z]) None [FLevel s tt (Some true)] in
  map (fun l => ss_idx (fl_state l)) (fm_levels (snd (train_model m false))) = [Some [0%Z; 1%Z; 2%Z]] /\
  map (fun l => ss_idx (fl_state l)) (fm_levels (snd (train_model m true))) = [Some [2%Z; 0%Z]].
Proof. split; reflexivity. Qed.
