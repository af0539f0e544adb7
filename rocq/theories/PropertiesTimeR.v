(** Property theorems C40, C41, C42, C91, C92: time, histogram and sigmoid kernels. *)
From Verif Require Import Base RVec RVecProofs KernelR KernelRSpec Psd TimeR TimeRSpec TimeRProofs.
Open Scope R_scope.

(** * C40 *)

(** The documented values, for points none of which are at a distance strictly
    between the lag and the lag plus one; in particular for integers. *)
Theorem C40_documented_profile_partial :
  forall lag : R, -1 <= lag -> forall x y : mat, length x <> 1%nat -> length y <> 1%nat ->
  (forall a b, In a x -> In b y -> Rabs (time a - time b) <= lag \/ lag + 1 <= Rabs (time a - time b)) ->
  hat_implicit lag x y = Ok (map (fun a => map (documented_hat lag a) y) x).
Proof. exact hat_matrix. Qed.
Print Assumptions C40_documented_profile_partial.
Theorem C40_integers :
  forall p a b : Z, (0 <= p)%Z -> hat (IZR p) [IZR a] [IZR b] = documented_hat (IZR p) [IZR a] [IZR b].
Proof. exact hat_integers. Qed.
Print Assumptions C40_integers.
(** In between it is never the documented zero. *)
Theorem C40_between_refuted :
  forall (lag : R) (x y : vec), lag < Rabs (time x - time y) < lag + 1 ->
    hat lag x y <> documented_hat lag x y /\ documented_hat lag x y = 0.
Proof. exact hat_between. Qed.
Print Assumptions C40_between_refuted.
(** A single time point cannot be evaluated. *)
Theorem C40_single_point_refuted :
  forall (lag : R) (x y : mat), length x = 1%nat \/ length y = 1%nat -> hat_implicit lag x y = Err EAssertionError.
Proof. intros lag. exact (guarded_single (hat lag)). Qed.
Print Assumptions C40_single_point_refuted.

Example C40_nontrivial : hat 2 [5] [4] = 2 /\ exists a b : vec, 1 < Rabs (time a - time b) < 2.
Proof.
  split.
  - unfold hat. cbn [time nth]. rewrite Rabs_right by lra. rewrite Rmax_left; lra.
  - exists [3 / 2], [0]. cbn [time nth]. rewrite Rabs_right; lra.
Qed.

(** * C41 *)

Theorem C41_default_psd_partial :
  forall lag : R, 0 <= lag -> forall x : mat, length x <> 1%nat -> Forall integer_point x ->
  exists m, indicator_implicit (indicator_init lag None false) x x = Ok m /\
    m = matrix_of (ind lag (2 * lag + 1)) x /\
    (forall i j, nth j (nth i m []) 0 = nth i (nth j m []) 0) /\
    forall c : vec, length c = length x -> 0 <= quadratic m c.
Proof. exact indicator_default_psd. Qed.
Print Assumptions C41_default_psd_partial.
Theorem C41_any_diagonal :
  forall lag gamma : R, 0 <= lag -> 2 * lag <= gamma -> psd_on integer_point (ind lag gamma).
Proof. exact ind_psd. Qed.
Print Assumptions C41_any_diagonal.
(** Changing the lag leaves the diagonal value of the old one. *)
Theorem C41_lag_changed_refuted :
  exists x m c, indicator_implicit (indicator_run (indicator_init 0 None false) [SetLag 1]) x x = Ok m /\
    Forall integer_point x /\ NoDup x /\ length c = length x /\ quadratic m c < 0.
Proof. exact indicator_lag_changed. Qed.
Print Assumptions C41_lag_changed_refuted.
Theorem C41_diagonal_frozen :
  forall (k : indicator) (os : list indicator_op), (forall o, In o os -> exists l, o = SetLag l) ->
    i_gamma (indicator_run k os) = i_gamma k.
Proof. exact indicator_lag_keeps_gamma. Qed.
Print Assumptions C41_diagonal_frozen.
(** With a trainable lag and the default diagonal value nothing can be evaluated. *)
Theorem C41_trainable_refuted :
  forall (lag : R) (os : list indicator_op) (x y : mat), (forall o, In o os -> forall b, o <> SetTrainable b) ->
    indicator_implicit (indicator_run (indicator_init lag None true) os) x y = Err ETypeError.
Proof. exact indicator_trainable_raises. Qed.
Print Assumptions C41_trainable_refuted.

Example C41_nontrivial : Forall integer_point [[1]; [4]; [4]; [2]] /\ 2 * (3 / 2) <= 4.
Proof.
  split; [|lra]. constructor; [now exists 1%Z|]. constructor; [now exists 4%Z|]. constructor; [now exists 4%Z|].
  constructor; [now exists 2%Z|constructor].
Qed.

(** * C42 *)

Theorem C42_additive :
  forall x y : vec, length x = length y -> histogram x -> histogram y -> clear_of_threshold x ->
    chi2 x y = chi2 y x /\ 0 <= chi2 x y <= 1 /\ chi2 x x = 1.
Proof. exact chi2_similarity. Qed.
Print Assumptions C42_additive.
Theorem C42_skewed :
  forall (p : R) (x y : vec), length x = length y ->
    Forall (fun a => 0 <= a + p) x -> Forall (fun a => 0 <= a + p) y ->
    exists v, skewed p x y = Some v /\ skewed p y x = Some v /\ 0 <= v <= 1.
Proof. exact skewed_similarity. Qed.
Print Assumptions C42_skewed.
Theorem C42_skewed_diagonal :
  forall (p : R) (x : vec), Forall (fun a => EPS <= 2 * (a + p)) x -> skewed p x x = Some 1.
Proof. exact skewed_self. Qed.
Print Assumptions C42_skewed_diagonal.
(** An empty bin with the default parameter gives zero. *)
Theorem C42_skewed_empty_bin_refuted :
  forall (p : R) (x : vec), Forall (fun a => 0 <= a + p) x -> In (- p) x -> skewed p x x = Some 0.
Proof. exact skewed_zero. Qed.
Print Assumptions C42_skewed_empty_bin_refuted.

Example C42_nontrivial : histogram [1 / 4; 0; 3 / 4] /\ clear_of_threshold [1 / 4; 0; 3 / 4] /\
  Forall (fun a => 0 <= a + 0) [1 / 4; 0; 3 / 4] /\ In (- 0) [1 / 4; 0; 3 / 4].
Proof.
  assert (E : EPS <= 1 / 2).
  { unfold EPS. apply (Rmult_le_reg_r (10 ^ 7)); [apply pow_lt; lra|]. rewrite Rinv_l by (apply pow_nonzero; lra). cbn. lra. }
  split; [split; [repeat constructor; lra|cbn; field]|].
  split; [constructor; [right; lra|constructor; [now left|constructor; [right; lra|constructor]]]|].
  split; [repeat constructor; lra|]. right. left. ring.
Qed.

(** * C91 *)

Theorem C91_hat_psd : forall lag : R, psd_on point (hat lag).
Proof. exact hat_psd. Qed.
Print Assumptions C91_hat_psd.
Theorem C91_hat_symmetric : forall (lag : R) (x y : vec), hat lag x y = hat lag y x.
Proof. exact hat_sym. Qed.
Print Assumptions C91_hat_symmetric.

Example C91_nontrivial : Forall point [[1 / 3]; [-2]; [7]].
Proof. repeat constructor. Qed.

(** * C92 *)

Theorem C92_sigmoid_bounded :
  forall (a b : R) (x y : vec), sigmoid_kernel a b x y = sigmoid_kernel a b y x /\ 0 < sigmoid_kernel a b x y < 1.
Proof. exact sigmoid_sym_bounded. Qed.
Print Assumptions C92_sigmoid_bounded.
Theorem C92_sigmoid_not_psd : ~ psd_on (fun x => length x = 1%nat) (sigmoid_kernel 1 0).
Proof. exact sigmoid_not_psd. Qed.
Print Assumptions C92_sigmoid_not_psd.

Example C92_nontrivial : sigmoid_kernel 1 0 [1; -1] [1; 1] = 1 / 2.
Proof.
  unfold sigmoid_kernel, dot. cbn [zipw sum fold_right]. replace (1 * (1 * 1 + (-1 * 1 + 0)) + 0) with 0 by ring.
  unfold sigmoid. rewrite Ropp_0, exp_0. field.
Qed.

(** * C95 *)

Theorem C95_additive :
  forall x y : vec, Forall2 (fun a b => EPS <= a + b) x y -> chi2 x y = documented_additive x y.
Proof. exact additive_documented. Qed.
Print Assumptions C95_additive.
Theorem C95_skewed_partial :
  forall x y : vec, Forall2 (fun a b => 0 <= a /\ 0 <= b) x y -> skewed 1 x y = Some (documented_skewed 1 x y).
Proof. exact skewed_documented_one. Qed.
Print Assumptions C95_skewed_partial.
(** For every other parameter it is a different function. *)
Theorem C95_skewed_refuted :
  forall p a : R, p <> 1 -> 0 <= a -> EPS <= 2 * (a + p) ->
    exists v, skewed p [a] [a] = Some v /\ v <> documented_skewed p [a] [a].
Proof. exact skewed_not_documented. Qed.
Print Assumptions C95_skewed_refuted.

Example C95_nontrivial : documented_additive [1; 3] [1; 1] = 5 / 2 /\ documented_skewed 1 [0] [3] = 4 / 5.
Proof.
  split; [unfold documented_additive; cbn; field|]. unfold documented_skewed. cbn.
  replace (0 + 1) with 1 by ring. replace (3 + 1) with (2 * 2) by ring. rewrite sqrt_1, sqrt_square by lra. field.
Qed.
