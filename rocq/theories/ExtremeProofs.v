(** Very small and very large bandwidths: proofs. *)
From Coq Require Import Lra Lia.
From Verif Require Import Base Beautify RVec RVecProofs KernelR KernelRSpec KernelRProofs LipschitzSpec LipschitzProofs ExtremeSpec.
Open Scope R_scope.

Lemma sqrt_half_ge : 1 / 2 <= sqrt (1 / 2).
Proof.
  rewrite <- (sqrt_square (1 / 2)) at 1 by lra. apply sqrt_le_1_alt. lra.
Qed.
Lemma sin_quarter : sin (PI / 4) = sqrt (1 / 2).
Proof. rewrite sin_PI4. rewrite sqrt_div_alt by lra. now rewrite sqrt_1. Qed.

Lemma shape_zero k : shape k 0 = peak k.
Proof.
  destruct k as [| | | | | | | |[|]]; cbn [shape peak]; try (destruct (Rle_dec 0 1) as [H|H]; [|lra]; try lra; try reflexivity).
  - rewrite Ropp_0, exp_0. lra.
  - replace (sqrt (1 / 2) * 0) with 0 by ring. rewrite Ropp_0, exp_0, Rplus_0_r, sin_quarter. ring.
  - replace (0 * 0 * - (1 / 2)) with 0 by ring. apply exp_0.
  - replace (0 * - sqrt (1 / 2)) with 0 by ring. apply exp_0.
Qed.

Lemma tail_exp c t : 1 / 2 <= c -> 0 < t -> exp (- (c * t)) <= 4 / t.
Proof.
  intros Hc Ht. pose proof (x_exp_neg (c * t)) as H. pose proof (exp_pos (- (c * t))) as P.
  apply (Rmult_le_reg_r t); [exact Ht|]. unfold Rdiv. rewrite Rmult_assoc, Rinv_l by lra. nra.
Qed.
Lemma inside_unit k t : compact k = true -> 0 <= t <= 1 -> 0 <= inside k t <= 1.
Proof.
  intros Hk Ht. pose proof (pow_unit t 2 Ht) as P2. pose proof (pow_unit t 3 Ht) as P3.
  destruct k; try discriminate Hk; unfold inside.
  - lra.
  - apply pow_unit. lra.
  - apply pow_unit. lra.
  - apply pow_unit. lra.
  - lra.
Qed.
Lemma four_over t : 0 < t <= 1 -> 1 <= 4 / t.
Proof. intros H. apply (Rmult_le_reg_r t); [lra|]. unfold Rdiv. rewrite Rmult_assoc, Rinv_l by lra. lra. Qed.
Lemma four_pos t : 0 < t -> 0 <= 4 / t.
Proof. intros H. apply Rlt_le, Rdiv_lt_0_compat; lra. Qed.

Lemma shape_tail k t : 0 < t -> Rabs (shape k t) <= 4 / t.
Proof.
  intros Ht. pose proof (four_pos t Ht) as Q. pose proof sqrt_half_ge as Hh.
  destruct (compact k) eqn:Hc.
  - rewrite shape_compact by exact Hc. destruct (Rle_dec t 1) as [H|H]; [|rewrite Rabs_R0; exact Q].
    pose proof (inside_unit k t Hc ltac:(lra)) as I. rewrite Rabs_right by lra. pose proof (four_over t ltac:(lra)). lra.
  - destruct k as [| | | | | | | |[|]]; try discriminate Hc; cbn [shape].
    + destruct (Rle_dec t 1) as [H|H]; [|rewrite Rabs_R0; exact Q]. rewrite Rabs_R1. apply four_over. lra.
    + pose proof (exp_pos t) as P1. pose proof (exp_pos (- t)) as P2. pose proof (exp_ge t) as G.
      rewrite Rabs_right by (apply Rle_ge, Rlt_le, Rdiv_lt_0_compat; lra).
      unfold Rdiv. apply Rmult_le_compat_l; [lra|]. apply Rinv_le_contravar; lra.
    + rewrite Rabs_mult, (Rabs_right (exp _)) by (apply Rle_ge, Rlt_le, exp_pos).
      pose proof (sin_abs_1 (PI / 4 + sqrt (1 / 2) * t)) as S. pose proof (Rabs_pos (sin (PI / 4 + sqrt (1 / 2) * t))) as S0.
      pose proof (tail_exp (sqrt (1 / 2)) t Hh Ht) as E. pose proof (exp_pos (- (sqrt (1 / 2) * t))) as P. nra.
    + rewrite Rabs_right by (apply Rle_ge, Rlt_le, exp_pos).
      destruct (Rle_dec t 1) as [H|H].
      * apply Rle_trans with 1; [|apply four_over; lra]. apply Rle_trans with (exp 0); [apply exp_mono|right; exact exp_0].
        pose proof (Rle_0_sqr t) as Q2. unfold Rsqr in Q2. lra.
      * replace (t * t * - (1 / 2)) with (- (t / 2 * t)) by field. apply tail_exp; [lra|exact Ht].
    + rewrite Rabs_right by (apply Rle_ge, Rlt_le, exp_pos).
      replace (t * - sqrt (1 / 2)) with (- (sqrt (1 / 2) * t)) by ring. now apply tail_exp.
Qed.

Lemma large_value k d sigma x y r : continuous_kernel k -> offered d -> 0 < sigma -> dist d x y = Ok r ->
  exists v, kvalue k d sigma x y = Ok (Fin v) /\ Rabs (v - peak k) <= sensitivity k * (r / sigma).
Proof.
  intros Hk Hd Hs Hr. rewrite (dist_dval d x y Hd) in Hr. injection Hr as <-.
  eexists. split; [now apply kvalue_shape|]. pose proof (dval_nonneg d x y) as N.
  assert (Q : 0 <= dval d x y / sigma) by (unfold Rdiv; apply Rmult_le_pos; [exact N|apply Rlt_le, Rinv_0_lt_compat; exact Hs]).
  rewrite <- (shape_zero k). eapply Rle_trans; [apply shape_lipschitz; [exact Hk|exact Q|lra]|].
  rewrite Rminus_0_r, Rabs_right by lra. lra.
Qed.
Lemma large_uniform d sigma x y r : offered d -> 0 < sigma -> dist d x y = Ok r -> r <= sigma ->
  kvalue Uniform d sigma x y = Ok (Fin 1).
Proof.
  intros Hd Hs Hr L. rewrite (dist_dval d x y Hd) in Hr. injection Hr as <-. rewrite kvalue_shape by assumption.
  cbn [shape]. destruct (Rle_dec _ 1) as [H|H]; [reflexivity|]. elim H.
  apply (Rmult_le_reg_r sigma); [exact Hs|]. unfold Rdiv. rewrite Rmult_assoc, Rinv_l by lra. lra.
Qed.
Lemma small_value k d sigma x y r : offered d -> 0 < sigma -> dist d x y = Ok r -> 0 < r ->
  exists v, kvalue k d sigma x y = Ok (Fin v) /\ Rabs v <= 4 * (sigma / r).
Proof.
  intros Hd Hs Hr P. rewrite (dist_dval d x y Hd) in Hr. injection Hr as <-.
  eexists. split; [now apply kvalue_shape|].
  eapply Rle_trans; [apply shape_tail; apply Rdiv_lt_0_compat; assumption|]. right. field. lra.
Qed.
Lemma same_value k d sigma x : offered d -> 0 < sigma -> kvalue k d sigma x x = Ok (Fin (peak k)).
Proof.
  intros Hd Hs. rewrite kvalue_shape by assumption. rewrite dval_self.
  replace (0 / sigma) with 0 by (unfold Rdiv; ring). now rewrite shape_zero.
Qed.

(** ** Whole samples *)
Lemma for_all_small {A : Type} (P : R -> A -> Prop) l :
  (forall a, In a l -> exists s, 0 < s /\ forall t, 0 < t <= s -> P t a) ->
  exists s, 0 < s /\ forall t, 0 < t <= s -> forall a, In a l -> P t a.
Proof.
  induction l as [|a l IH]; intros H.
  - exists 1. split; [lra|]. intros t _ a [].
  - destruct (H a (or_introl eq_refl)) as (s1 & P1 & Q1). destruct IH as (s2 & P2 & Q2); [intros b Hb; apply H; now right|].
    exists (Rmin s1 s2). split; [now apply Rmin_pos|]. intros t [T1 T2] b [<-|Hb].
    + apply Q1. pose proof (Rmin_l s1 s2). lra.
    + apply Q2; [pose proof (Rmin_r s1 s2); lra|exact Hb].
Qed.
Lemma for_all_large {A : Type} (P : R -> A -> Prop) l :
  (forall a, In a l -> exists s, 0 < s /\ forall t, s <= t -> P t a) ->
  exists s, 0 < s /\ forall t, s <= t -> forall a, In a l -> P t a.
Proof.
  induction l as [|a l IH]; intros H.
  - exists 1. split; [lra|]. intros t _ a [].
  - destruct (H a (or_introl eq_refl)) as (s1 & P1 & Q1). destruct IH as (s2 & P2 & Q2); [intros b Hb; apply H; now right|].
    exists (Rmax s1 s2). split; [pose proof (Rmax_l s1 s2); lra|]. intros t T b [<-|Hb].
    + apply Q1. pose proof (Rmax_l s1 s2). lra.
    + apply Q2; [pose proof (Rmax_r s1 s2); lra|exact Hb].
Qed.

Theorem matrix_small k d n (s : mat) eps : offered d -> rect n s -> 0 < eps ->
  exists sigma0, 0 < sigma0 /\ forall sigma, 0 < sigma <= sigma0 -> forall x y, In x s -> In y s ->
    exists v, kvalue k d sigma x y = Ok (Fin v) /\ (x = y -> v = peak k) /\ (x <> y -> Rabs v <= eps).
Proof.
  intros Hd Hn He.
  destruct (for_all_small (fun sigma xy => exists v, kvalue k d sigma (fst xy) (snd xy) = Ok (Fin v) /\
      (fst xy = snd xy -> v = peak k) /\ (fst xy <> snd xy -> Rabs v <= eps)) (list_prod s s)) as (s0 & P & Q).
  - intros (x, y) Hxy. apply in_prod_iff in Hxy. destruct Hxy as (Hx & Hy). cbn [fst snd].
    assert (Lx : length x = length y).
    { pose proof (proj1 (Forall_forall _ _) Hn x Hx) as Ex. pose proof (proj1 (Forall_forall _ _) Hn y Hy) as Ey. cbv beta in Ex, Ey. congruence. }
    destruct (Rle_lt_or_eq_dec 0 (dval d x y) (dval_nonneg d x y)) as [H|H].
    + exists (eps * dval d x y / 4). split; [apply Rdiv_lt_0_compat; [now apply Rmult_lt_0_compat|lra]|].
      intros t [T1 T2]. destruct (small_value k d t x y _ Hd T1 (dist_dval d x y Hd) H) as (v & V & B).
      exists v. split; [exact V|]. split.
      * intros ->. rewrite dval_self in H. lra.
      * intros _. eapply Rle_trans; [exact B|]. apply (Rmult_le_reg_r (dval d x y)); [exact H|].
        unfold Rdiv. rewrite !Rmult_assoc, Rinv_l by lra. lra.
    + exists 1. split; [lra|]. intros t [T1 _]. symmetry in H. pose proof (dval_zero d x y Lx H) as E. subst y.
      exists (peak k). split; [now apply same_value|]. split; [reflexivity|]. intros N. now elim N.
  - exists s0. split; [exact P|]. intros sigma Hs x y Hx Hy. exact (Q sigma Hs (x, y) (in_prod s s x y Hx Hy)).
Qed.
Theorem matrix_large k d (s : mat) eps : offered d -> 0 < eps ->
  exists sigma0, 0 < sigma0 /\ forall sigma, sigma0 <= sigma -> forall x y, In x s -> In y s ->
    exists v, kvalue k d sigma x y = Ok (Fin v) /\ Rabs (v - peak k) <= eps.
Proof.
  intros Hd He.
  destruct (for_all_large (fun sigma xy => exists v, kvalue k d sigma (fst xy) (snd xy) = Ok (Fin v) /\
      Rabs (v - peak k) <= eps) (list_prod s s)) as (s0 & P & Q).
  - intros (x, y) _. cbn [fst snd]. pose proof (dval_nonneg d x y) as N.
    assert (D : k = Uniform \/ continuous_kernel k) by (destruct k; (now left) || (right; discriminate)).
    destruct D as [->|Hk].
    + exists (dval d x y + 1). split; [lra|]. intros t T. exists 1.
      split; [apply (large_uniform d t x y _ Hd ltac:(lra) (dist_dval d x y Hd)); lra|].
      cbn [peak]. rewrite Rminus_eq_0, Rabs_R0. lra.
    + pose proof (sensitivity_nonneg k) as L. exists (sensitivity k * dval d x y / eps + 1).
      assert (Z : 0 <= sensitivity k * dval d x y / eps)
        by (unfold Rdiv; apply Rmult_le_pos; [now apply Rmult_le_pos|apply Rlt_le, Rinv_0_lt_compat; exact He]).
      split; [lra|]. intros t T.
      destruct (large_value k d t x y _ Hk Hd ltac:(lra) (dist_dval d x y Hd)) as (v & V & B).
      exists v. split; [exact V|]. eapply Rle_trans; [exact B|].
      apply (Rmult_le_reg_r t); [lra|]. unfold Rdiv. rewrite !Rmult_assoc, Rinv_l by lra.
      assert (E : sensitivity k * dval d x y = sensitivity k * dval d x y / eps * eps) by (field; lra).
      rewrite Rmult_1_r, E. nra.
  - exists s0. split; [exact P|]. intros sigma Hs x y Hx Hy. exact (Q sigma Hs (x, y) (in_prod s s x y Hx Hy)).
Qed.

(** ** Dual models *)
Lemma values_of k d sigma x (s : mat) : offered d -> 0 < sigma ->
  Forall2 (fun y b => kvalue k d sigma x y = Ok (Fin b)) s (map (fun y => shape k (dval d x y / sigma)) s).
Proof. intros Hd Hs. induction s as [| y s IH]; cbn; constructor; [now apply kvalue_shape | exact IH]. Qed.

Theorem prediction_small k d sigma delta x (s : mat) alpha : offered d -> 0 < sigma -> 0 < delta ->
  Forall (fun y => exists r, dist d x y = Ok r /\ delta <= r) s -> length alpha = length s ->
  exists u, Forall2 (fun y b => kvalue k d sigma x y = Ok (Fin b)) s u /\
    Rabs (weighted alpha u) <= total alpha * (4 * (sigma / delta)).
Proof.
  intros Hd Hs Hp F La. eexists. split; [now apply values_of|]. unfold weighted. apply weighted_bound.
  - now rewrite map_length.
  - apply Rmult_le_pos; [lra|]. apply Rlt_le, Rdiv_lt_0_compat; assumption.
  - apply Forall_map. eapply Forall_impl; [|exact F]. cbv beta. intros y (r & Hr & Hle).
    rewrite (dist_dval d x y Hd) in Hr. injection Hr as Er. rewrite Er.
    eapply Rle_trans; [apply shape_tail; apply Rdiv_lt_0_compat; lra|].
    replace (4 / (r / sigma)) with (4 * (sigma / r)) by (field; lra).
    apply Rmult_le_compat_l; [lra|]. unfold Rdiv. apply Rmult_le_compat_l; [lra|]. apply Rinv_le_contravar; lra.
Qed.
Lemma weighted_const alpha (s : mat) c : length alpha = length s -> weighted alpha (map (fun _ => c) s) = sum alpha * c.
Proof.
  unfold weighted. revert s. induction alpha as [|a al IH]; intros [|y s] L; cbn in L; try discriminate; cbn; [ring|].
  injection L as L. pose proof (IH s L) as E. unfold sum in E. cbn in E. unfold sum. rewrite E. ring.
Qed.
Theorem prediction_large k d sigma D x (s : mat) alpha : continuous_kernel k -> offered d -> 0 < sigma -> 0 <= D ->
  Forall (fun y => exists r, dist d x y = Ok r /\ r <= D) s -> length alpha = length s ->
  exists u, Forall2 (fun y b => kvalue k d sigma x y = Ok (Fin b)) s u /\
    Rabs (weighted alpha u - sum alpha * peak k) <= total alpha * (sensitivity k * (D / sigma)).
Proof.
  intros Hk Hd Hs HD F La. eexists. split; [now apply values_of|].
  rewrite <- (weighted_const alpha s (peak k) La), weighted_diff by (rewrite !map_length; auto).
  pose proof (sensitivity_nonneg k) as L. assert (Is : 0 < / sigma) by now apply Rinv_0_lt_compat.
  apply weighted_bound.
  - clear -La. revert alpha La. induction s as [| y s IH]; intros [| a al] Ha; cbn in *; try discriminate; [reflexivity |].
    injection Ha as Ha. f_equal. now apply IH.
  - apply Rmult_le_pos; [exact L|]. unfold Rdiv. nra.
  - clear La. induction s as [| y s IH]; cbn; constructor.
    + apply Forall_cons_iff in F as [(r & Hr & Hle) _]. destruct (large_value k d sigma x y r Hk Hd Hs Hr) as (v & V & B).
      rewrite kvalue_shape in V by assumption. injection V as <-. eapply Rle_trans; [exact B|].
      apply Rmult_le_compat_l; [exact L|]. unfold Rdiv. apply Rmult_le_compat_r; lra.
    + apply IH. now apply Forall_cons_iff in F.
Qed.
