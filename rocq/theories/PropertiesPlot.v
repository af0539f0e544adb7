(** C180 *)
From Coq Require Import QArith.
From Verif Require Import Base Plot PlotSpec.
Open Scope nat_scope.
Open Scope string_scope.
Open Scope list_scope.

(** C180 (full statement, false: "the plots show the data with the labels that are asked for").
    What every plot of a matrix does, exactly: it shows the matrix on the axes that are given, and
    the title if the labels are asked for; it changes nothing else. *)
Theorem C180_matrix_partial : forall M (gram : M -> M) p m labels ax,
  let before := get_ax ax in let after := run_plot gram p m labels ax in
  image after = Some (match p with PlotHiddenCorrelation => gram m | _ => m end) /\
  title after = (if labels then Some (title_of p) else title before) /\
  xlabel after = xlabel before /\ ylabel after = ylabel before /\ bars after = bars before /\ logscale after = logscale before.
Proof.
  intros M gram p m labels ax. destruct p, labels; repeat split.
Qed.
Print Assumptions C180_matrix_partial.

(** The labels are those of the documentation exactly when they are not asked for: on new axes,
    no label of an axis is ever displayed. *)
Theorem C180_labels_refuted : forall M (gram : M -> M) p m labels,
  (displayed p labels blank (run_plot gram p m labels None) <-> labels = false) /\
  xlabel (run_plot gram p m labels None) = None /\ ylabel (run_plot gram p m labels None) = None.
Proof.
  intros M gram p m labels. split; [|destruct p, labels; split; reflexivity].
  split.
  - destruct labels; [|reflexivity]. intros [_ [H _]]. destruct p; discriminate H.
  - intros ->. destruct p; repeat split.
Qed.
Print Assumptions C180_labels_refuted.

(** The bars of the eigenvalues are all at the same place; a single eigenvalue cannot be plotted. *)
Theorem C180_eigenvalues_refuted : forall M (vals : list Q) labels log,
  (List.length vals = 1 -> @plot_eigenvalues M vals labels log None = Err EAssertionError) /\
  (forall a, @plot_eigenvalues M vals labels log None = Ok a ->
     (one_bar_each vals (bars a) <-> vals = []) /\ map snd (bars a) = vals /\
     title a = (if labels then Some "Eigenvalues" else None) /\ logscale a = log).
Proof.
  intros M vals labels log. unfold plot_eigenvalues. split; [intros ->; reflexivity|].
  intros a H. destruct (Nat.eqb (List.length vals) 1) eqn:E; [discriminate H|].
  assert (S : bars a = map (fun h => (List.length vals, h)) vals /\ title a = (if labels then Some "Eigenvalues" else None) /\ logscale a = log)
    by (injection H as <-; destruct labels, log; repeat split).
  destruct S as [S T]. rewrite S.
  assert (B : forall (n : nat) hs, map snd (map (fun h : Q => (n, h)) hs) = hs /\ map fst (map (fun h : Q => (n, h)) hs) = map (fun _ => n) hs).
  { intros n hs. rewrite !map_map. cbn. rewrite map_id. split; reflexivity. }
  destruct (B (List.length vals) vals) as [B1 B2]. split; [|split; [exact B1 | exact T]].
  unfold one_bar_each. rewrite B1, B2. split.
  - intros [_ N]. destruct vals as [|u [|v vs]]; [reflexivity | discriminate E |].
    exfalso. cbn [map] in N. apply NoDup_cons_iff in N. destruct N as [N _]. apply N. left. reflexivity.
  - intros ->. split; [reflexivity | constructor].
Qed.
Print Assumptions C180_eigenvalues_refuted.

(** A scatter plot fails for every view without target; the heat map of a view with two input
    dimensions always fails, whatever the view computes. *)
Theorem C180_scatter_refuted : forall num dim forward,
  (forall n with_heat, scatter num dim None forward with_heat = Err ENotInitialized /\
     scatter num dim (Some n) forward false = Ok (Picture num true None)) /\
  ((forall r c r', forward r c = Ok r' -> r' = r) -> forall target, is_ok (scatter num 2 target forward true) = false).
Proof.
  intros num dim forward. split; [intros n h; split; reflexivity|].
  intros R target. destruct target as [n|]; [|reflexivity].
  cbn [scatter read_target bind andb Nat.eqb]. unfold heat_map.
  change (50 + 50) with 100. destruct (forward 50 100) as [r|e] eqn:E; [|reflexivity].
  rewrite (R _ _ _ E). reflexivity.
Qed.
Print Assumptions C180_scatter_refuted.

Example C180_nontrivial :
  title (run_plot (fun m : list (list Q) => m) PlotK [[1%Q]] true None) = Some "Kernel Matrix" /\
  xlabel (run_plot (fun m : list (list Q) => m) PlotK [[1%Q]] true (Some (set_xlabel (Some "x") blank))) = Some "x" /\
  is_ok (@plot_eigenvalues unit [3%Q; 1%Q] true true None) = true /\
  map (fun a : axes unit => bars a) (match plot_eigenvalues [3%Q; 1%Q] true true None with Ok a => [a] | Err _ => [] end) = [[(2, 3%Q); (2, 1%Q)]] /\
  scatter 10 2 (Some 10) (fun r _ => Ok r) true = Err ERuntimeError /\
  scatter 10 3 (Some 10) (fun r _ => Ok r) true = Ok (Picture 10 true None).
Proof. repeat split. Qed.
Print Assumptions C180_nontrivial.
