(** Chi-squared kernels are positive semi-definite: proofs. *)
From Verif Require Import Base RVec RVecProofs KernelR KernelRSpec Psd KernelRProofs Multiplier PsdCompactProofs TimeR TimeRSpec TimeRProofs.
Open Scope R_scope.

Definition clear (a : R) : Prop := a = 0 \/ EPS <= 2 * a.
Lemma EPS_pos : 0 < EPS.
Proof. unfold EPS. apply Rinv_0_lt_compat. apply pow_lt. lra. Qed.

Section Cauchy.
  Context {X : Type}.
  Variable dom : X -> Prop.
  Variable g : X -> R.
  Hypothesis Hg : forall x, dom x -> clear (g x).

  (** The inverse of a sum, where the product with [h] vanishes when both terms do. *)
  Lemma cauchy_mult (h : X -> R) : (forall x, dom x -> g x = 0 -> h x = 0) ->
    multiplier dom (fun x y => 2 * (h x * h y) / Rmax (g x + g y) EPS).
  Proof.
    intros Hh. apply (mult_limit dom (fun n x y => 2 * (h x * h y) * geometric n (g x + g y))).
    - intros n. apply mult_mult.
      + apply mult_scale; [lra|]. apply (mult_conj dom h).
      + unfold geometric. apply mult_scale; [left; apply Rinv_0_lt_compat, lt_0_INR; lia|].
        apply (mult_sum dom (fun k x y => exp (- (INR k * / INR (S n) * (g x + g y))))). intros k.
        apply (mult_ext dom (fun x y => exp (- (INR k * / INR (S n) * g x)) * exp (- (INR k * / INR (S n) * g y)))).
        * intros x y _ _. rewrite <- exp_plus. f_equal. ring.
        * apply (mult_conj dom (fun x => exp (- (INR k * / INR (S n) * g x)))).
    - intros x y Hx Hy. pose proof EPS_pos as He.
      destruct (Req_dec (g x) 0) as [Zx|Nx].
      { rewrite (Hh x Hx Zx). unfold Rdiv. rewrite Rmult_0_l, Rmult_0_r, Rmult_0_l. intros e Hpos. exists O. intros n _.
        rewrite Rmult_0_l. unfold R_dist. now rewrite Rminus_diag_eq, Rabs_R0. }
      destruct (Req_dec (g y) 0) as [Zy|Ny].
      { rewrite (Hh y Hy Zy). unfold Rdiv. rewrite Rmult_0_r, Rmult_0_r, Rmult_0_l. intros e Hpos. exists O. intros n _.
        rewrite Rmult_0_l. unfold R_dist. now rewrite Rminus_diag_eq, Rabs_R0. }
      destruct (Hg x Hx) as [Zx|Lx]; [contradiction|]. destruct (Hg y Hy) as [Zy|Ly]; [contradiction|].
      rewrite Rmax_left by lra. unfold Rdiv.
      apply (CV_mult (fun _ => 2 * (h x * h y)) (fun n => geometric n (g x + g y))); [apply cv_const|]. apply geometric_cv. lra.
  Qed.
End Cauchy.

Lemma nth_clear x j : clear_of_threshold x -> clear (nth j x 0).
Proof.
  intros H. destruct (Nat.lt_ge_cases j (length x)) as [L|L].
  - exact (proj1 (Forall_forall _ _) H _ (nth_In x 0 L)).
  - rewrite nth_overflow by exact L. now left.
Qed.

Lemma chi2_coordinates d x y : length x = d -> length y = d ->
  chi2 x y = sum (map (fun j => 2 * (nth j x 0 * nth j y 0) / Rmax (nth j x 0 + nth j y 0) EPS) (seq 0 d)).
Proof.
  unfold chi2. revert x y. induction d as [|d IH]; intros [|a x] [|b y] Hx Hy; try discriminate; [reflexivity|].
  injection Hx as Hx. injection Hy as Hy. cbn [zipw seq map]. rewrite !sum_cons, IH by assumption. f_equal.
  rewrite <- seq_shift, map_map. reflexivity.
Qed.
Theorem chi2_psd d : psd_on (fun x : vec => length x = d /\ clear_of_threshold x) chi2.
Proof.
  apply (psd_ext _ (fun x y => sum (map (fun j => 2 * (nth j x 0 * nth j y 0) / Rmax (nth j x 0 + nth j y 0) EPS) (seq 0 d)))).
  - intros x y [Hx _] [Hy _]. now rewrite (chi2_coordinates d).
  - apply (psd_sum _ (fun j x y => 2 * (nth j x 0 * nth j y 0) / Rmax (nth j x 0 + nth j y 0) EPS)). intros j _.
    apply mult_psd. apply (cauchy_mult _ (fun x : vec => nth j x 0)); [|auto]. intros x [_ Hx]. now apply nth_clear.
Qed.

Definition skewed_value (p : R) (x y : vec) : R :=
  product (zipw (fun a b => 2 * (sqrt (a + p) * sqrt (b + p)) / Rmax (a + b + 2 * p) EPS) x y).
Lemma product_mult {X} (dom : X -> Prop) (f : nat -> X -> X -> R) l :
  (forall j, In j l -> multiplier dom (f j)) -> multiplier dom (fun x y => product (map (fun j => f j x y) l)).
Proof.
  induction l as [|j l IH]; intros H.
  - exact (mult_const dom 1 Rle_0_1).
  - apply (mult_mult dom (f j) (fun x y => product (map (fun j => f j x y) l))); [apply H; now left|].
    apply IH. intros i Hi. apply H. now right.
Qed.
Lemma skewed_coordinates p d x y : length x = d -> length y = d ->
  skewed_value p x y = product (map (fun j => 2 * (sqrt (nth j x 0 + p) * sqrt (nth j y 0 + p)) /
                                              Rmax ((nth j x 0 + p) + (nth j y 0 + p)) EPS) (seq 0 d)).
Proof.
  unfold skewed_value. revert x y. induction d as [|d IH]; intros [|a x] [|b y] Hx Hy; try discriminate; [reflexivity|].
  injection Hx as Hx. injection Hy as Hy. cbn [zipw seq map]. unfold product in *. cbn [fold_right]. rewrite IH by assumption.
  rewrite <- seq_shift, map_map. f_equal. cbn [nth]. do 2 f_equal. ring.
Qed.
Theorem skewed_psd p d :
  exists f, (forall x y, length x = d /\ clear_of_threshold (map (fun a => a + p) x) ->
                         length y = d /\ clear_of_threshold (map (fun a => a + p) y) -> skewed p x y = Some (f x y)) /\
            psd_on (fun x : vec => length x = d /\ clear_of_threshold (map (fun a => a + p) x)) f.
Proof.
  pose proof EPS_pos as He. exists (skewed_value p). split.
  - intros x y [_ Hx] [_ Hy]. unfold skewed.
    assert (F : forallb (fun a => if Rlt_dec (a + p) 0 then false else true) (x ++ y) = true).
    { apply forallb_forall. intros a Ha. unfold clear_of_threshold in Hx, Hy. rewrite Forall_map, Forall_forall in Hx, Hy.
      apply in_app_or in Ha. destruct (Rlt_dec (a + p) 0) as [L|L]; [exfalso|reflexivity].
      destruct Ha as [Ha|Ha]; [destruct (Hx a Ha)|destruct (Hy a Ha)]; lra. }
    now rewrite F.
  - apply (psd_ext _ (fun x y => product (map (fun j => 2 * (sqrt (nth j x 0 + p) * sqrt (nth j y 0 + p)) /
                                              Rmax ((nth j x 0 + p) + (nth j y 0 + p)) EPS) (seq 0 d)))).
    + intros x y [Hx _] [Hy _]. now rewrite (skewed_coordinates p d).
    + apply mult_psd. apply (product_mult _ (fun j x y => 2 * (sqrt (nth j x 0 + p) * sqrt (nth j y 0 + p)) /
                                              Rmax ((nth j x 0 + p) + (nth j y 0 + p)) EPS)).
      intros j Hj. apply in_seq in Hj. apply (cauchy_mult _ (fun x : vec => nth j x 0 + p) ) with (h := fun x : vec => sqrt (nth j x 0 + p)).
      * intros x [Hl Hx]. unfold clear_of_threshold in Hx. rewrite Forall_map, Forall_forall in Hx. apply Hx. apply nth_In. lia.
      * intros x _ E. rewrite E. apply sqrt_0.
Qed.

(** Below the threshold the property is lost. *)
Theorem chi2_small_not_psd : ~ psd_on (fun x : vec => length x = 1%nat /\ Forall (fun a => 0 <= a) x) chi2.
Proof.
  pose proof EPS_pos as He.
  intros H. specialize (H [[EPS / 10]; [EPS]] [-9; 1]).
  assert (F : Forall (fun x : vec => length x = 1%nat /\ Forall (fun a => 0 <= a) x) [[EPS / 10]; [EPS]]).
  { repeat constructor; lra. }
  specialize (H F eq_refl). unfold quadratic, matrix_of, dot, chi2 in H. cbn [map zipw sum fold_right] in H.
  rewrite (Rmax_right (EPS / 10 + EPS / 10)) in H by lra. rewrite (Rmax_left (EPS / 10 + EPS)) in H by lra.
  rewrite (Rmax_left (EPS + EPS / 10)) in H by lra. rewrite (Rmax_left (EPS + EPS)) in H by lra.
  assert (E : -9 * (-9 * (2 * (EPS / 10 * (EPS / 10)) / EPS + 0) + (1 * (2 * (EPS / 10 * EPS) / (EPS / 10 + EPS) + 0) + 0)) +
     (1 * (-9 * (2 * (EPS * (EPS / 10)) / (EPS + EPS / 10) + 0) + (1 * (2 * (EPS * EPS) / (EPS + EPS) + 0) + 0)) + 0) =
     EPS * (162 / 100 - 36 / 11 + 1)) by (field; lra).
  rewrite E in H. nra.
Qed.
