(** Functions whose pointwise product with any positive semi-definite function is
    positive semi-definite: closure properties, and two classical limits that build
    such functions from inner products.  Proofs. *)
From Verif Require Import Base RVec RVecProofs KernelR KernelRSpec Psd KernelRProofs.
Open Scope R_scope.

Definition multiplier {X : Type} (dom : X -> Prop) (f : X -> X -> R) : Prop :=
  forall g, psd_on dom g -> psd_on dom (fun x y => f x y * g x y).

Section Multiplier.
  Context {X : Type}.
  Variable dom : X -> Prop.

  Lemma mult_psd f : multiplier dom f -> psd_on dom f.
  Proof.
    intros H. apply (psd_ext dom (fun x y => f x y * 1)); [intros; ring|]. apply H. apply psd_one.
  Qed.
  Lemma mult_ext f g : (forall x y, dom x -> dom y -> f x y = g x y) -> multiplier dom f -> multiplier dom g.
  Proof.
    intros E H k Hk. apply (psd_ext dom (fun x y => f x y * k x y)); [|now apply H].
    intros x y Hx Hy. now rewrite E.
  Qed.
  Lemma mult_const c : 0 <= c -> multiplier dom (fun _ _ => c).
  Proof. intros Hc g Hg. now apply psd_scale. Qed.
  Lemma mult_conj (g : X -> R) : multiplier dom (fun x y => g x * g y).
  Proof. intros f Hf. now apply (psd_conj dom g f). Qed.
  Lemma mult_plus f g : multiplier dom f -> multiplier dom g -> multiplier dom (fun x y => f x y + g x y).
  Proof.
    intros Hf Hg k Hk. apply (psd_ext dom (fun x y => f x y * k x y + g x y * k x y)); [intros; ring|].
    apply psd_plus; [now apply Hf|now apply Hg].
  Qed.
  Lemma mult_mult f g : multiplier dom f -> multiplier dom g -> multiplier dom (fun x y => f x y * g x y).
  Proof.
    intros Hf Hg k Hk. apply (psd_ext dom (fun x y => f x y * (g x y * k x y))); [intros; ring|].
    apply Hf. now apply Hg.
  Qed.
  Lemma mult_scale c f : 0 <= c -> multiplier dom f -> multiplier dom (fun x y => c * f x y).
  Proof. intros Hc. apply (mult_mult (fun _ _ => c)). now apply mult_const. Qed.
  Lemma mult_pow f n : multiplier dom f -> multiplier dom (fun x y => f x y ^ n).
  Proof.
    intros Hf. induction n as [|n IH]; [exact (mult_const 1 Rle_0_1)|]. exact (mult_mult f (fun x y => f x y ^ n) Hf IH).
  Qed.
  Lemma mult_sum (f : nat -> X -> X -> R) n : (forall k, multiplier dom (f k)) ->
    multiplier dom (fun x y => sum_f_R0 (fun k => f k x y) n).
  Proof.
    intros Hf. induction n as [|n IH]; [exact (Hf O)|].
    exact (mult_plus (fun x y => sum_f_R0 (fun k => f k x y) n) (f (S n)) IH (Hf (S n))).
  Qed.
  Lemma mult_limit (f : nat -> X -> X -> R) g : (forall n, multiplier dom (f n)) ->
    (forall x y, dom x -> dom y -> Un_cv (fun n => f n x y) (g x y)) -> multiplier dom g.
  Proof.
    intros Hf Hg k Hk. apply (psd_limit dom (fun n x y => f n x y * k x y)); [intros n; now apply Hf|].
    intros x y Hx Hy. apply (CV_mult (fun n => f n x y) (fun _ => k x y)); [now apply Hg|apply cv_const].
  Qed.
  Lemma mult_exp f : multiplier dom f -> multiplier dom (fun x y => exp (f x y)).
  Proof.
    intros Hf. apply (mult_limit (fun n x y => E1 (f x y) n)); [|intros x y _ _; apply E1_cvg].
    intros n. unfold E1. apply (mult_sum (fun k x y => / INR (fact k) * f x y ^ k)). intros k.
    apply mult_scale; [left; apply Rinv_0_lt_compat, INR_fact_lt_0|]. now apply mult_pow.
  Qed.
End Multiplier.

(** ** Convergence with an explicit rate *)

Lemma cv_rate (u : nat -> R) l C : (forall n, Rabs (u n - l) <= C * / INR (S n)) -> Un_cv u l.
Proof.
  intros H e He.
  destruct (Rle_lt_dec C 0) as [Hc|Hc].
  - exists O. intros n _. unfold R_dist. specialize (H n).
    assert (0 < / INR (S n)) by (apply Rinv_0_lt_compat, lt_0_INR; lia). nra.
  - destruct (archimed_cor1 (e / C)) as (N & HN & Np); [now apply Rdiv_lt_0_compat|].
    exists N. intros n Hn. unfold R_dist. eapply Rle_lt_trans; [apply H|].
    assert (/ INR (S n) <= / INR N).
    { apply Rinv_le_contravar; [apply lt_0_INR; lia|apply le_INR; lia]. }
    apply Rle_lt_trans with (C * / INR N); [now apply Rmult_le_compat_l; [left|]|].
    apply (Rmult_lt_compat_l C) in HN; [|exact Hc]. replace (C * (e / C)) with e in HN by (field; lra). exact HN.
Qed.

(** ** The inverse as a mixture of exponentials *)

Definition geometric (n : nat) (u : R) : R :=
  / INR (S n) * sum_f_R0 (fun k => exp (- (INR k * / INR (S n) * u))) (n + n * S n).

Lemma exp_mult_nat a k : exp (INR k * a) = exp a ^ k.
Proof.
  induction k as [|k IH]; [cbn; rewrite Rmult_0_l; apply exp_0|].
  rewrite S_INR, Rmult_plus_distr_r, exp_plus, IH, Rmult_1_l. cbn. ring.
Qed.

Lemma exp_minus_bounds x : 0 < x -> x / (1 + x) <= 1 - exp (- x) <= x.
Proof.
  intros Hx. split.
  - pose proof (exp_ineq1_le x) as E. rewrite exp_Ropp.
    assert (/ exp x <= / (1 + x)) by (apply Rinv_le_contravar; lra).
    replace (x / (1 + x)) with (1 - / (1 + x)) by (field; lra). lra.
  - pose proof (exp_ineq1_le (- x)). lra.
Qed.

Lemma geometric_value n u : 0 < u ->
  geometric n u = / INR (S n) * ((1 - exp (- (INR (S n) * u))) / (1 - exp (- (/ INR (S n) * u)))).
Proof.
  intros Hu. unfold geometric. set (m := INR (S n)).
  assert (Hm : 0 < m) by (apply lt_0_INR; lia).
  set (r := exp (- (/ m * u))).
  assert (Hr : r <> 1).
  { intros E. assert (Hx : 0 < / m * u) by (apply Rmult_lt_0_compat; [now apply Rinv_0_lt_compat|exact Hu]).
    pose proof (exp_increasing (- (/ m * u)) 0 ltac:(lra)) as L. rewrite exp_0 in L. unfold r in E. lra. }
  f_equal. rewrite (sum_eq _ (fun k => r ^ k)).
  - rewrite tech3 by exact Hr. f_equal. f_equal. unfold r. rewrite <- exp_mult_nat. f_equal.
    replace (S (n + n * S n)) with (S n * S n)%nat by lia. rewrite mult_INR. fold m. field. lra.
  - intros k _. unfold r. rewrite <- exp_mult_nat. f_equal. ring.
Qed.

Lemma geometric_cv u : 0 < u -> Un_cv (fun n => geometric n u) (/ u).
Proof.
  intros Hu. apply (cv_rate _ _ (1 + / u * / u)). intros n. rewrite geometric_value by exact Hu.
  set (m := INR (S n)). assert (Hm : 0 < m) by (apply lt_0_INR; lia).
  assert (Hi : 0 < / m) by now apply Rinv_0_lt_compat. assert (Hiu : 0 < / u) by now apply Rinv_0_lt_compat.
  assert (Hx : 0 < / m * u) by now apply Rmult_lt_0_compat. assert (Hy : 0 < m * u) by now apply Rmult_lt_0_compat.
  destruct (exp_minus_bounds _ Hx) as [L1 U1]. destruct (exp_minus_bounds _ Hy) as [L2 U2].
  set (a := 1 - exp (- (/ m * u))) in *. set (b := 1 - exp (- (m * u))) in *.
  assert (Hb1 : b <= 1) by (unfold b; pose proof (exp_pos (- (m * u))); lra).
  assert (Hb0 : 0 < b).
  { eapply Rlt_le_trans; [|exact L2]. apply Rdiv_lt_0_compat; lra. }
  assert (Ha : 0 < a).
  { eapply Rlt_le_trans; [|exact L1]. apply Rdiv_lt_0_compat; lra. }
  (* the inverse of [a], between two bounds *)
  assert (A1 : / (/ m * u) <= / a) by (apply Rinv_le_contravar; lra).
  assert (A2 : / a <= (1 + / m * u) / (/ m * u)).
  { replace ((1 + / m * u) / (/ m * u)) with (/ (/ m * u / (1 + / m * u))) by (field; repeat split; lra).
    apply Rinv_le_contravar; [apply Rdiv_lt_0_compat; lra|exact L1]. }
  assert (B1 : / m * / a <= / u + / m).
  { apply (Rmult_le_compat_l (/ m)) in A2; [|lra]. eapply Rle_trans; [exact A2|]. right. field. lra. }
  assert (B2 : / u <= / m * / a).
  { apply (Rmult_le_compat_l (/ m)) in A1; [|lra]. eapply Rle_trans; [|exact A1]. right. field. lra. }
  assert (B3 : 1 - b <= / m * / u).
  { assert (m * u / (1 + m * u) = 1 - / (1 + m * u)) as E by (field; lra).
    assert (/ (1 + m * u) <= / (m * u)) by (apply Rinv_le_contravar; lra).
    rewrite Rinv_mult in H. lra. }
  unfold Rdiv. set (q := / m * / a) in *.
  replace (/ m * (b * / a)) with (b * q) by (unfold q; ring).
  assert (Q0 : 0 <= q) by lra.
  apply Rabs_le. split.
  - (* b q >= b / u >= 1/u - 1/(m u^2) *)
    assert (b * / u <= b * q) by (apply Rmult_le_compat_l; lra).
    assert ((1 - b) * / u <= / m * / u * / u) by (apply Rmult_le_compat_r; lra). nra.
  - assert (b * q <= 1 * q) by (apply Rmult_le_compat_r; lra).
    assert (0 <= / u * / u * / m) by (apply Rmult_le_pos; [apply Rmult_le_pos|]; lra). nra.
Qed.

(** ** The square root as a mixture of rational functions *)

Definition rational (n : nat) (s : R) : R :=
  let m := INR (S n) in
  sum_f_R0 (fun k => / m * (1 - (INR (S k) * / m) ^ 2 * / (s + (INR (S k) * / m) ^ 2))) (n + n * S n).

Lemma atan_step a b : a < b -> 0 <= a -> (b - a) / (1 + b ^ 2) <= atan b - atan a <= (b - a) / (1 + a ^ 2).
Proof.
  intros Hab Ha.
  destruct (MVT_cor2 atan (fun x => / (1 + x ^ 2)) a b Hab) as (c & E & Hc).
  - intros c _. apply derivable_pt_lim_atan.
  - rewrite E. unfold Rdiv. rewrite (Rmult_comm (/ (1 + c ^ 2))).
    split; (apply Rmult_le_compat_l; [lra|]); apply Rinv_le_contravar; nra.
Qed.
Lemma atan_le x : 0 <= x -> atan x <= x.
Proof.
  intros [H|<-]; [|rewrite atan_0; lra]. destruct (atan_step 0 x H (Rle_refl 0)) as [_ U]. rewrite atan_0 in U. nra.
Qed.

Lemma sum_telescope (f : nat -> R) n : sum_f_R0 (fun k => f (S k) - f k) n = f (S n) - f O.
Proof. induction n as [|n IH]; cbn [sum_f_R0]; [reflexivity|]. rewrite IH. ring. Qed.

Lemma rational_cv s : 0 <= s -> Un_cv (fun n => rational n s) (PI / 2 * sqrt s).
Proof.
  intros [Hs|<-].
  2: { rewrite sqrt_0, Rmult_0_r. apply (cv_rate _ _ 0). intros n. unfold rational.
       rewrite (sum_eq _ (fun _ => 1 * 0)).
       - rewrite <- scal_sum. rewrite Rmult_0_l, Rminus_0_r, Rabs_R0. lra.
       - intros k _. assert (0 < INR (S n)) by (apply lt_0_INR; lia). assert (0 < INR (S k)) by (apply lt_0_INR; lia).
         field. split; [|lra]. apply Rgt_not_eq. nra. }
  set (q := sqrt s). assert (Hq : 0 < q) by now apply sqrt_lt_R0.
  assert (Hqq : q * q = s) by (apply sqrt_sqrt; lra).
  apply (cv_rate _ _ (q * q + 1)). intros n. unfold rational. set (m := INR (S n)).
  assert (Hm : 0 < m) by (apply lt_0_INR; lia). assert (Hi : 0 < / m) by now apply Rinv_0_lt_compat.
  set (N := (n + n * S n)%nat).
  assert (HN : INR (S N) * / m = m).
  { replace (S N) with (S n * S n)%nat by (unfold N; lia). rewrite mult_INR. fold m. field. lra. }
  set (t := fun k => INR k * / m / q).
  assert (Ht : forall k, 0 <= t k).
  { intros k. unfold t. apply Rle_mult_inv_pos; [|exact Hq]. apply Rmult_le_pos; [apply pos_INR|lra]. }
  assert (Hstep : forall k, t (S k) - t k = / m / q).
  { intros k. unfold t. rewrite S_INR. field. lra. }
  assert (Hd : 0 < / m / q) by now apply Rdiv_lt_0_compat.
  assert (Hlt : forall k, t k < t (S k)) by (intros k; specialize (Hstep k); lra).
  assert (Term : forall k, / m * (1 - (INR k * / m) ^ 2 * / (s + (INR k * / m) ^ 2)) = q * (/ m / q / (1 + t k ^ 2))).
  { intros k. unfold t. rewrite <- Hqq. assert (0 <= INR k) by apply pos_INR.
    assert (0 <= INR k * / m) by (apply Rmult_le_pos; lra). set (v := INR k * / m) in *. field.
    repeat split; try lra; apply Rgt_not_eq; nra. }
  rewrite (sum_eq _ (fun k => / m / q / (1 + t (S k) ^ 2) * q)) by (intros k _; rewrite Term; ring).
  rewrite <- scal_sum.
  assert (Up : sum_f_R0 (fun k => / m / q / (1 + t (S k) ^ 2)) N <= atan (t (S N)) - atan (t O)).
  { rewrite <- (sum_telescope (fun k => atan (t k))). apply sum_Rle. intros k _.
    destruct (atan_step (t k) (t (S k)) (Hlt k) (Ht k)) as [L _]. now rewrite Hstep in L. }
  assert (Lo : atan (t (S (S N))) - atan (t 1%nat) <= sum_f_R0 (fun k => / m / q / (1 + t (S k) ^ 2)) N).
  { rewrite <- (sum_telescope (fun k => atan (t (S k)))). apply sum_Rle. intros k _.
    destruct (atan_step (t (S k)) (t (S (S k))) (Hlt _) (Ht _)) as [_ U]. now rewrite Hstep in U. }
  assert (T0 : t O = 0) by (unfold t; change (INR 0) with 0; field; lra).
  assert (T1 : t 1%nat = / m / q) by (unfold t; change (INR 1) with 1; field; lra).
  assert (TN : t (S N) = / (q / m)) by (unfold t; rewrite HN; field; lra).
  rewrite T0, atan_0, Rminus_0_r in Up. rewrite T1 in Lo.
  assert (Hqm : 0 < q / m) by now apply Rdiv_lt_0_compat.
  assert (AN : atan (t (S N)) = PI / 2 - atan (q / m)) by (rewrite TN; now apply atan_inv).
  assert (Mono : atan (t (S N)) <= atan (t (S (S N)))) by (left; apply atan_increasing, Hlt).
  pose proof (atan_le (q / m) ltac:(lra)) as A1. pose proof (atan_le (/ m / q) ltac:(lra)) as A2.
  assert (A3 : 0 < atan (q / m)) by (rewrite <- atan_0; now apply atan_increasing).
  set (S0 := sum_f_R0 _ N) in *.
  assert (L : PI / 2 - q / m - / m / q <= S0) by lra.
  assert (U : S0 <= PI / 2) by lra.
  apply (Rmult_le_compat_l q) in L; [|lra]. apply (Rmult_le_compat_l q) in U; [|lra].
  replace (q * (PI / 2 - q / m - / m / q)) with (q * (PI / 2) - (q * q + 1) * / m) in L by (field; lra).
  assert (0 <= (q * q + 1) * / m) by (apply Rmult_le_pos; nra).
  apply Rabs_le. split; lra.
Qed.
