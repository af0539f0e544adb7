(** C178 *)
From Coq Require Import QArith.
From Verif Require Import Base Classes ClassesSpec Abstract AbstractSpec Shared SharedSpec SharedProofs.
Open Scope nat_scope.
Open Scope string_scope.
Open Scope list_scope.

(** C178 (full statement, false: "the hyperparameters of a level and of its kernel are independent,
    whatever level and kernel are combined").  With one dictionary for both, every history of
    assignments and readings goes as with two exactly when no name is used by both. *)
Theorem C178_separate_partial : forall (A : Type) (v : A) (ln kn : list string),
  (forall xs : list (access A), Forall (uses ln kn) xs -> on_object [] xs = on_two_objects ([], []) xs) <-> (forall n, ~ shared ln kn n).
Proof.
  intros A v ln kn. split.
  - intros H n S. destruct (interferes A ln kn n v S) as [U [O T]]. specialize (H _ U). rewrite O, T in H. discriminate H.
  - intros D xs F. apply (apart A ln kn D xs [] ([], [])); [split; reflexivity | exact F].
Qed.
Print Assumptions C178_separate_partial.

(** The names that are used by both, for all the levels, kernels and distances of kerch: gamma for
    the least squares, sigma for PPCA, nothing else. *)
Theorem C178_table_partial : forall l k d n,
  In l single_levels -> In k (plain_kernels ++ distance_kernels) -> In d distance_choices ->
  (shared (level_names l) (kernel_names k d) n <->
   (In l least_squares /\ In k ["RFHyperbola"; "Indicator"] /\ In n ["_gamma"; "gamma"]) \/
   (l = "PPCA" /\ In k with_bandwidth /\ n = "sigma")).
Proof.
  intros l k d n Il Ik Id. rewrite (table_exact l k d n Il Ik Id). unfold expected.
  rewrite <- (BaseProofs.smem_In l least_squares), <- (BaseProofs.smem_In k ["RFHyperbola"; "Indicator"]), <- (BaseProofs.smem_In k with_bandwidth).
  destruct (smem l least_squares) eqn:EL.
  - assert (NP : l <> "PPCA") by (intros ->; vm_compute in EL; discriminate EL).
    destruct (smem k ["RFHyperbola"; "Indicator"]); cbn [andb]; [tauto|].
    apply String.eqb_neq in NP. rewrite NP. cbn [andb]. apply String.eqb_neq in NP. cbn [In].
    split; [tauto|]. intros [[_ [F _]] | [F _]]; [discriminate F | contradiction].
  - cbn [andb]. destruct (String.eqb l "PPCA") eqn:EP.
    + apply String.eqb_eq in EP. destruct (smem k with_bandwidth); cbn [andb In].
      * split; [intros [<- | []]; right; tauto | intros [[F _] | [_ [_ ->]]]; [discriminate F | left; reflexivity]].
      * split; [tauto | intros [[F _] | [_ [F _]]]; discriminate F].
    + apply String.eqb_neq in EP. cbn [andb In]. split; [tauto|]. intros [[F _] | [F _]]; [discriminate F | contradiction].
Qed.
Print Assumptions C178_table_partial.

Open Scope Q_scope.
(** With the indicator kernel, the regularisation of the least squares is the diagonal of the
    kernel: at creation, and after it has been set.  By default the diagonal is not that of the
    documentation, and the matrix is not positive, whatever the lag. *)
Theorem C178_indicator_refuted : forall l lag gamma, In l least_squares ->
  (forall x, indicator_entry (create_indicator l lag gamma) x x = given gamma 1) /\
  (forall v, exists o, set_gamma (object_class l "Indicator") v (create_indicator l lag gamma) = Ok o /\
     get_gamma o = Some v /\ (forall x, indicator_entry o x x = v)) /\
  (forall p, 0 < p -> three_points (indicator_entry (create_indicator l (Some p) None)) p 2 (-(3)) 2 == -(7)).
Proof.
  intros l lag gamma I. split; [|split].
  - intro x. apply diagonal, I.
  - intro v. apply set_both, I.
  - intros p P. apply negative; assumption.
Qed.
Print Assumptions C178_indicator_refuted.

(** With a level that has no regularisation, the diagonal is the documented one. *)
Theorem C178_indicator_partial : forall l lag gamma, In l ["View"; "Level"; "KPCA"; "PPCA"; "WPCA"] ->
  (forall x, indicator_entry (create_indicator l lag gamma) x x = given gamma (2 * given lag 1 + 1)) /\
  (forall p a b c, 1 # 2 <= p -> 0 <= three_points (indicator_entry (create_indicator l (Some p) None)) p a b c).
Proof.
  intros l lag gamma I.
  assert (N : smem "LSSVM" (cls_of l) = false) by (repeat (destruct I as [<- | I]; [vm_compute; reflexivity|]); destruct I).
  split; [intro x; apply other_diagonal, N | intros p a b c P; apply documented; assumption].
Qed.
Print Assumptions C178_indicator_partial.

(** With the hyperbola kernel, the least squares cannot be created at all, whatever the options,
    although the kernel can be. *)
Theorem C178_hyperbola_refuted :
  (forall l alpha gamma delta beta, In l least_squares ->
     create_hyperbola (object_class l "RFHyperbola") (Some l) alpha gamma delta beta =
     Err (if Qle_bool (given alpha 1) 0 then EAssertionError else EAttributeError)) /\
  (forall alpha gamma delta beta, 0 < given alpha 1 -> 0 < given gamma 1 -> 0 < given delta 1 -> 0 < given beta 2 ->
     given alpha 1 * given gamma 1 < given beta 2 * given beta 2 ->
     exists o, create_hyperbola (kernel_class "RFHyperbola") None alpha gamma delta beta = Ok o /\ get_gamma o = Some (given gamma 1)).
Proof.
  split.
  - intros l alpha gamma delta beta I. apply hyperbola_level, I.
  - intros alpha gamma delta beta A G D B H. apply hyperbola_alone; assumption.
Qed.
Print Assumptions C178_hyperbola_refuted.

(** The classes exist; the default kernel; the documented and the actual diagonal; two histories. *)
Example C178_nontrivial :
  resolve settable (object_class "Ridge" "Indicator") "gamma" = Some "LSSVM" /\
  resolve settable (object_class "KPCA" "Indicator") "gamma" = Some "Indicator" /\
  resolve settable (kernel_class "RFHyperbola") "gamma" = Some "RFHyperbola" /\
  is_ok (create_hyperbola (kernel_class "RFHyperbola") None None None None None) = true /\
  is_ok (create_hyperbola (object_class "KPCA" "RFHyperbola") (Some "KPCA") None None None None) = true /\
  indicator_entry (create_indicator "KPCA" (Some 3) None) 1 1 == 7 /\
  indicator_entry (create_indicator "Ridge" (Some 3) None) 1 1 == 1 /\
  (~ shared (level_names "LSSVM") (kernel_names "RBF" None) "sigma") /\
  on_object [] [Assign Level_ "_gamma" true; Assign Kernel_ "_sigma" false; Read Level_ "_gamma"] =
    on_two_objects ([], []) [Assign Level_ "_gamma" true; Assign Kernel_ "_sigma" false; Read Level_ "_gamma"] /\
  on_object [] [Assign Level_ "_gamma" true; Assign Kernel_ "_gamma" false; Read Level_ "_gamma"] <>
    on_two_objects ([], []) [Assign Level_ "_gamma" true; Assign Kernel_ "_gamma" false; Read Level_ "_gamma"].
Proof.
  repeat match goal with |- _ /\ _ => split end; try (vm_compute; reflexivity).
  - intros [F _]. apply BaseProofs.smem_In in F. vm_compute in F. discriminate F.
  - vm_compute. discriminate.
Qed.
Print Assumptions C178_nontrivial.
