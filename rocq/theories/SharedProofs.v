(** One dictionary for the attributes of a level and of its kernel. *)
From Coq Require Import QArith Lqa Lia Btauto.
From Verif Require Import Base BaseProofs Classes ClassesSpec Abstract AbstractSpec Shared SharedSpec.
Open Scope nat_scope.
Open Scope string_scope.
Open Scope list_scope.

Section Apart.
  Variables (A : Type) (ln kn : list string).
  Definition agrees (o : dict A) (p : dict A * dict A) : Prop :=
    (forall n, In n ln -> dget o n = dget (fst p) n) /\ (forall n, In n kn -> dget o n = dget (snd p) n).

  Lemma apart : (forall n, ~ shared ln kn n) -> forall xs o p, agrees o p -> Forall (uses ln kn) xs -> on_object o xs = on_two_objects p xs.
  Proof.
    intros D xs. induction xs as [|x xs IH]; intros o p [HL HK] F; [reflexivity|].
    apply Forall_cons_iff in F. destruct F as [U F]. simpl. f_equal.
    - destruct x as [s n v|s n]; [reflexivity|]. destruct s; simpl in *; [apply HL, U | apply HK, U].
    - apply IH; [|exact F].
      destruct x as [s n v|s n]; [|split; assumption].
      destruct s; simpl in *; split; intros m I; simpl.
      + destruct (string_dec n m) as [E|E]; [subst m; rewrite !dset_get_same; reflexivity | rewrite !dset_get_other by congruence; apply HL, I].
      + rewrite dset_get_other by (intros ->; apply (D n); split; assumption). apply HK, I.
      + rewrite dset_get_other by (intros ->; apply (D n); split; assumption). apply HL, I.
      + destruct (string_dec n m) as [E|E]; [subst m; rewrite !dset_get_same; reflexivity | rewrite !dset_get_other by congruence; apply HK, I].
  Qed.

  Lemma interferes : forall n v, shared ln kn n ->
    Forall (uses ln kn) [Assign Level_ n v; Read Kernel_ n] /\
    on_object (@nil (string * A)) [Assign Level_ n v; Read Kernel_ n] = [Some v; Some v] /\
    on_two_objects (@nil (string * A), []) [Assign Level_ n v; Read Kernel_ n] = [Some v; None].
  Proof.
    intros n v [L K]. split; [repeat constructor; assumption|]. split; [|reflexivity].
    cbn [on_object answer after_access]. rewrite dset_get_same. reflexivity.
  Qed.
End Apart.

(** *** The table *)
Definition common (ln kn : list string) : list string := nodup string_dec (filter (fun n => smem n kn) ln).
Definition expected (l k : string) : list string :=
  if smem l least_squares && smem k ["RFHyperbola"; "Indicator"] then ["_gamma"; "gamma"]
  else if String.eqb l "PPCA" && smem k with_bandwidth then ["sigma"] else [].
Definition row_ok (c e : list string) : bool := forallb (fun n => smem n e) c && forallb (fun n => smem n c) e.
Lemma rows : forallb (fun k => forallb (fun d => let kn := kernel_names k d in
    forallb (fun l => row_ok (common (level_names l) kn) (expected l k)) single_levels) distance_choices) (plain_kernels ++ distance_kernels) = true.
Proof. vm_compute. reflexivity. Qed.

Lemma common_shared : forall ln kn n, In n (common ln kn) <-> shared ln kn n.
Proof.
  intros ln kn n. unfold common, shared. rewrite nodup_In, filter_In, smem_In. tauto.
Qed.
Lemma table_exact : forall l k d n, In l single_levels -> In k (plain_kernels ++ distance_kernels) -> In d distance_choices ->
  (shared (level_names l) (kernel_names k d) n <-> In n (expected l k)).
Proof.
  intros l k d n Il Ik Id. pose proof rows as R.
  rewrite forallb_forall in R. specialize (R k Ik). rewrite forallb_forall in R. specialize (R d Id). cbv zeta beta in R.
  rewrite forallb_forall in R. specialize (R l Il). unfold row_ok in R. apply andb_prop in R. destruct R as [R1 R2].
  rewrite forallb_forall in R1, R2. rewrite <- common_shared. split; intro I.
  - apply smem_In, R1, I.
  - apply smem_In, R2, I.
Qed.

(** *** Gamma *)
Open Scope Q_scope.
Lemma least_squares_init : forall l, In l least_squares -> smem "LSSVM" (cls_of l) = true.
Proof. intros l [<- | [<- | []]]; vm_compute; reflexivity. Qed.

Lemma diagonal : forall l lag gamma x, In l least_squares ->
  indicator_entry (create_indicator l lag gamma) x x = given gamma 1.
Proof.
  intros l lag gamma x I. unfold indicator_entry, create_indicator, level_init. rewrite (least_squares_init l I).
  assert (E : Qeq_bool (x - x) 0 = true) by (apply Qeq_bool_iff; ring). rewrite E. reflexivity.
Qed.
Lemma other_diagonal : forall l lag gamma x, smem "LSSVM" (cls_of l) = false ->
  indicator_entry (create_indicator l lag gamma) x x = given gamma (2 * given lag 1 + 1).
Proof.
  intros l lag gamma x I. unfold indicator_entry, create_indicator, level_init. rewrite I.
  assert (E : Qeq_bool (x - x) 0 = true) by (apply Qeq_bool_iff; ring). rewrite E. reflexivity.
Qed.

Lemma finds_lssvm : forall l k, In l least_squares -> In k (plain_kernels ++ distance_kernels) ->
  resolve settable (object_class l k) "gamma" = Some "LSSVM".
Proof.
  assert (T : forallb (fun l => forallb (fun k => match resolve settable (object_class l k) "gamma" with Some n => String.eqb n "LSSVM" | None => false end)
    (plain_kernels ++ distance_kernels)) least_squares = true) by (vm_compute; reflexivity).
  intros l k Il Ik. rewrite forallb_forall in T. specialize (T l Il). rewrite forallb_forall in T. specialize (T k Ik). cbv beta in T.
  destruct (resolve settable (object_class l k) "gamma") as [n|]; [|discriminate T]. apply String.eqb_eq in T. rewrite T. reflexivity.
Qed.

Lemma set_both : forall l lag gamma v, In l least_squares ->
  exists o, set_gamma (object_class l "Indicator") v (create_indicator l lag gamma) = Ok o /\
    get_gamma o = Some v /\ (forall x, indicator_entry o x x = v).
Proof.
  intros l lag gamma v I. unfold set_gamma. rewrite finds_lssvm by (assumption || (vm_compute; tauto)).
  unfold create_indicator, level_init. rewrite (least_squares_init l I). cbn.
  eexists. split; [reflexivity|]. split; [reflexivity|].
  intro x. unfold indicator_entry.
  assert (E : Qeq_bool (x - x) 0 = true) by (apply Qeq_bool_iff; ring). rewrite E. reflexivity.
Qed.

Lemma entry_zero : forall o x y p, dget o "_lag" = Some p -> 0 < p -> p < x - y \/ p < y - x -> indicator_entry o x y = 0.
Proof.
  intros o x y p L P H. unfold indicator_entry. rewrite L.
  assert (N : Qeq_bool (x - y) 0 = false).
  { destruct (Qeq_bool (x - y) 0) eqn:E; [|reflexivity]. apply Qeq_bool_iff in E. lra. }
  rewrite N. destruct (Qle_bool 0 (x - y)) eqn:S.
  - apply Qle_bool_iff in S. destruct (Qle_bool (x - y) p) eqn:T; [apply Qle_bool_iff in T; lra | reflexivity].
  - destruct (Qle_bool (- (x - y)) p) eqn:T; [|reflexivity]. apply Qle_bool_iff in T.
    assert (~ 0 <= x - y) by (intro Z; apply Qle_bool_iff in Z; congruence). lra.
Qed.
Lemma entry_one : forall o x y p, dget o "_lag" = Some p -> 0 < p -> ~ x - y == 0 -> - p <= x - y <= p -> indicator_entry o x y = 1.
Proof.
  intros o x y p L P N0 H. unfold indicator_entry. rewrite L.
  assert (N : Qeq_bool (x - y) 0 = false).
  { destruct (Qeq_bool (x - y) 0) eqn:E; [|reflexivity]. apply Qeq_bool_iff in E. contradiction. }
  rewrite N. destruct (Qle_bool 0 (x - y)) eqn:S.
  - assert (T : Qle_bool (x - y) p = true) by (apply Qle_bool_iff; lra). rewrite T. reflexivity.
  - assert (T : Qle_bool (- (x - y)) p = true) by (apply Qle_bool_iff; lra). rewrite T. reflexivity.
Qed.

Lemma negative : forall l p, In l least_squares -> 0 < p ->
  three_points (indicator_entry (create_indicator l (Some p) None)) p 2 (-(3)) 2 == -(7).
Proof.
  intros l p I P. unfold three_points. rewrite !(diagonal l _ _ _ I).
  assert (L : dget (create_indicator l (Some p) None) "_lag" = Some p).
  { unfold create_indicator, level_init. rewrite (least_squares_init l I). reflexivity. }
  rewrite (entry_one _ 0 p p L P) by lra. rewrite (entry_one _ p 0 p L P) by lra.
  rewrite (entry_one _ p (2 * p) p L P) by lra. rewrite (entry_one _ (2 * p) p p L P) by lra.
  rewrite (entry_zero _ 0 (2 * p) p L P) by lra. rewrite (entry_zero _ (2 * p) 0 p L P) by lra.
  cbn [given]. ring.
Qed.

(** With the documented diagonal the same matrix is positive as soon as the lag is at least 1/2. *)
Lemma documented : forall l p a b c, smem "LSSVM" (cls_of l) = false -> 1 # 2 <= p ->
  0 <= three_points (indicator_entry (create_indicator l (Some p) None)) p a b c.
Proof.
  intros l p a b c I P. unfold three_points. rewrite !(other_diagonal l _ _ _ I).
  assert (P0 : 0 < p) by lra.
  assert (L : dget (create_indicator l (Some p) None) "_lag" = Some p).
  { unfold create_indicator, level_init. rewrite I. reflexivity. }
  rewrite (entry_one _ 0 p p L P0) by lra. rewrite (entry_one _ p 0 p L P0) by lra.
  rewrite (entry_one _ p (2 * p) p L P0) by lra. rewrite (entry_one _ (2 * p) p p L P0) by lra.
  rewrite (entry_zero _ 0 (2 * p) p L P0) by lra. rewrite (entry_zero _ (2 * p) 0 p L P0) by lra.
  cbn [given].
  assert (S : forall q : Q, 0 <= q * q) by (intro q; nra).
  pose proof (S (a + b)) as H1. pose proof (S (b + c)) as H2. pose proof (S a) as H3. pose proof (S b) as H4. pose proof (S c) as H5.
  assert (E : a * a * (2 * p + 1) + b * b * (2 * p + 1) + c * c * (2 * p + 1) + a * b * (1 + 1) + b * c * (1 + 1) + a * c * (0 + 0)
     == (a + b) * (a + b) + (b + c) * (b + c) + (2 * p - 1) * (b * b) + (2 * p) * (a * a) + (2 * p) * (c * c)) by ring.
  rewrite E. nra.
Qed.

Lemma hyperbola_level : forall l alpha gamma delta beta, In l least_squares ->
  create_hyperbola (object_class l "RFHyperbola") (Some l) alpha gamma delta beta =
  Err (if Qle_bool (given alpha 1) 0 then EAssertionError else EAttributeError).
Proof.
  intros l alpha gamma delta beta I. unfold create_hyperbola, hyperbola_init, positive_attribute.
  destruct (Qle_bool (given alpha 1) 0); [reflexivity|]. cbn [bind].
  unfold set_gamma. rewrite finds_lssvm by (assumption || (vm_compute; tauto)). reflexivity.
Qed.
Lemma hyperbola_alone : forall alpha gamma delta beta, 0 < given alpha 1 -> 0 < given gamma 1 -> 0 < given delta 1 -> 0 < given beta 2 ->
  given alpha 1 * given gamma 1 < given beta 2 * given beta 2 ->
  exists o, create_hyperbola (kernel_class "RFHyperbola") None alpha gamma delta beta = Ok o /\ get_gamma o = Some (given gamma 1).
Proof.
  intros alpha gamma delta beta A G D B H.
  assert (N : forall u v : Q, u < v -> Qle_bool v u = false).
  { intros u v L. destruct (Qle_bool v u) eqn:E; [apply Qle_bool_iff in E; lra | reflexivity]. }
  unfold create_hyperbola, hyperbola_init, positive_attribute. rewrite (N _ _ A). cbn [bind].
  assert (R : resolve settable (kernel_class "RFHyperbola") "gamma" = Some "RFHyperbola") by (vm_compute; reflexivity).
  unfold set_gamma. rewrite R, (N _ _ G). cbn [bind]. rewrite (N _ _ D). cbn [bind]. rewrite (N _ _ B), (N _ _ H). cbn [bind].
  eexists. split; [reflexivity|]. reflexivity.
Qed.
