(** Kernels whose matrices of distinct points are positive definite: proofs. *)
From Verif Require Import Base RVec RVecProofs KernelR KernelRSpec Psd KernelRProofs Multiplier PsdKernelProofs.
From Verif Require Import DefiniteSpec DefiniteProofs.
Open Scope R_scope.

Section Functions.
  Context {X : Type}.
  Variable dom : X -> Prop.

  (** The quadratic form vanishes at zero only. *)
  Definition strict (f : X -> X -> R) : Prop :=
    forall l, over_dom dom l -> NoDup (map snd l) -> qsum f l = 0 -> forall p, In p l -> fst p = 0.

  Lemma strict_ext f g : (forall x y, dom x -> dom y -> f x y = g x y) -> strict f -> strict g.
  Proof.
    intros E H l Hl ND Z. apply H; [exact Hl|exact ND|]. rewrite <- Z. now apply (qsum_dom_ext dom).
  Qed.
  Lemma strict_scale a f : a <> 0 -> strict f -> strict (fun x y => a * f x y).
  Proof.
    intros Ha H l Hl ND Z. apply H; [exact Hl|exact ND|]. rewrite qsum_scale in Z.
    destruct (Rmult_integral _ _ Z) as [?|?]; [contradiction|assumption].
  Qed.
  Lemma strict_conj g f : (forall x, dom x -> g x <> 0) -> strict f -> strict (fun x y => g x * g y * f x y).
  Proof.
    intros Hg H l Hl ND Z [a x] Hp. rewrite qsum_conj in Z.
    assert (E : fst (a * g x, x) = 0).
    { apply (H (reweight g l)).
      - now apply over_dom_reweight.
      - unfold reweight. rewrite map_map. exact ND.
      - exact Z.
      - unfold reweight. exact (in_map (fun p => (fst p * g (snd p), snd p)) l (a, x) Hp). }
    cbn in *. destruct (Rmult_integral _ _ E) as [?|N]; [assumption|]. exfalso. apply (Hg x); [|exact N].
    exact (over_dom_In dom l (a, x) Hl Hp).
  Qed.
  Lemma strict_product f g : symmetric dom f -> psd_on dom f -> (forall x, dom x -> 0 < f x x) -> psd_on dom g -> strict g ->
    strict (fun x y => f x y * g x y).
  Proof.
    intros Sf Hf Pf Hg H l Hl ND Z [a o] Hp. pose proof (over_dom_In dom l (a, o) Hl Hp) as Ho. cbn in Ho.
    pose proof (null_factor dom f g o l Sf Hf Hg Ho Hl Z) as N.
    assert (E : fst (a * f o o, o) = 0).
    { apply (H (reweight (fun x => f x o) l)).
      - now apply over_dom_reweight.
      - unfold reweight. rewrite map_map. exact ND.
      - exact N.
      - unfold reweight. exact (in_map (fun p => (fst p * f (snd p) o, snd p)) l (a, o) Hp). }
    cbn in *. specialize (Pf o Ho). destruct (Rmult_integral _ _ E) as [?|?]; [assumption|lra].
  Qed.

  (** ** Exponentials *)

  Section Exponential.
    Variable s : X -> X -> R.
    Hypothesis Hs : exponentials dom s.
    Hypothesis Ss : symmetric dom s.

    Lemma slope_cv u : 0 <= u -> Un_cv (fun n => INR (S n) * (exp (- (/ INR (S n) * u)) - 1)) (- u).
    Proof.
      intros [Hu|<-].
      2: { apply (cv_rate _ _ 0). intros n. rewrite Rmult_0_r, Ropp_0, exp_0.
           replace (INR (S n) * (1 - 1) - 0) with 0 by ring. rewrite Rabs_R0. lra. }
      apply (cv_rate _ _ (u * u)). intros n. set (m := INR (S n)). assert (Hm : 0 < m) by (apply lt_0_INR; lia).
      assert (Hi : 0 < / m) by now apply Rinv_0_lt_compat. assert (Hx : 0 < / m * u) by now apply Rmult_lt_0_compat.
      destruct (exp_minus_bounds _ Hx) as [L U]. set (e := exp (- (/ m * u))) in *.
      apply (Rmult_le_compat_l m) in L; [|lra]. apply (Rmult_le_compat_l m) in U; [|lra].
      replace (m * (/ m * u)) with u in U by (field; lra).
      assert (E : m * (/ m * u / (1 + / m * u)) = u - u * (/ m * u) / (1 + / m * u)) by (field; split; nra).
      assert (B : u * (/ m * u) / (1 + / m * u) <= u * u * / m).
      { apply Rmult_le_reg_r with (1 + / m * u); [lra|].
        unfold Rdiv. rewrite Rmult_assoc, Rinv_l, Rmult_1_r by lra.
        assert (0 <= u * u * / m * (/ m * u)) by (repeat apply Rmult_le_pos; lra). nra. }
      apply Rabs_le. split; nra.
    Qed.

    Lemma negative_type l : over_dom dom l -> linear (fun _ => 1) l = 0 -> qsum s l <= 0.
    Proof.
      intros Hl Z. enough (0 <= qsum (fun x y => - s x y) l) as H.
      { rewrite (qsum_ext _ (fun x y => -1 * s x y)), qsum_scale in H by (intros; ring). lra. }
      apply (cv_nonneg (fun n => qsum (fun x y => INR (S n) * (exp (- (/ INR (S n) * s x y)) - 1)) l)).
      - unfold qsum. apply cv_sum. intros p Hp. apply cv_sum. intros q Hq.
        apply (CV_mult (fun _ => fst p * fst q) (fun n => INR (S n) * (exp (- (/ INR (S n) * s (snd p) (snd q))) - 1)));
          [apply cv_const|]. apply slope_cv. apply (proj1 Hs); now apply (over_dom_In dom l).
      - intros n. rewrite (qsum_ext _ (fun x y => INR (S n) * (exp (- (/ INR (S n) * s x y)) + -1 * 1))) by (intros; ring).
        rewrite qsum_scale, qsum_plus, qsum_scale, qsum_one, Z, !Rmult_0_l, Rmult_0_r, Rplus_0_r.
        assert (Hm : 0 < INR (S n)) by (apply lt_0_INR; lia).
        apply Rmult_le_pos; [lra|]. apply (proj1 (psd_qsum dom _)); [|exact Hl]. apply mult_psd. apply (proj2 Hs).
        left. now apply Rinv_0_lt_compat.
    Qed.

    Hypothesis Hz : forall x, dom x -> s x x = 0.

    Definition recentred (o x y : X) : R := s x o + s y o - s x y.
    Lemma recentred_sym o : symmetric dom (recentred o).
    Proof. intros x y Hx Hy. unfold recentred. rewrite (Ss x y) by assumption. ring. Qed.
    Lemma recentred_psd o : dom o -> psd_on dom (recentred o).
    Proof.
      intros Ho. apply psd_qsum. intros l Hl. set (w := linear (fun _ => 1) l).
      assert (Hl' : over_dom dom ((- w, o) :: l)) by now constructor.
      assert (Z : linear (fun _ : X => 1) ((- w, o) :: l) = 0).
      { unfold linear. cbn [map fst snd]. rewrite sum_cons. fold (linear (fun _ : X => 1) l). fold w. ring. }
      pose proof (negative_type _ Hl' Z) as N. rewrite (qsum_cons dom) in N by assumption. rewrite (Hz o Ho) in N.
      assert (E : qsum (recentred o) l = 2 * w * linear (fun x => s x o) l - qsum s l); [|lra].
      unfold qsum, recentred.
      rewrite (sum_map_ext _ (fun p => (w * (fst p * s (snd p) o) + linear (fun x => s x o) l * (fst p * 1)) -
                                       sum (map (fun q => fst p * fst q * s (snd p) (snd q)) l))).
      - rewrite sum_map_minus, sum_map_plus, !sum_map_scal.
        fold (linear (fun x => s x o) l). fold (linear (fun _ : X => 1) l). fold w. ring.
      - intros p _. unfold w, linear. rewrite <- sum_map_minus || idtac.
        rewrite (sum_map_ext (fun q => fst p * fst q * (s (snd p) o + s (snd q) o - s (snd p) (snd q)))
                   (fun q => (fst p * s (snd p) o * (fst q * 1) + fst p * 1 * (fst q * s (snd q) o)) - fst p * fst q * s (snd p) (snd q)))
          by (intros; ring).
        rewrite sum_map_minus, sum_map_plus, !sum_map_scal. ring.
    Qed.

    Hypothesis separated : forall x y, dom x -> dom y -> x <> y -> 0 < s x y.

    Theorem exponential_strict t : 0 < t -> strict (fun x y => exp (- (t * s x y))).
    Proof.
      intros Ht l Hl ND Z p Hp. destruct l as [|[b o] l]; [destruct Hp|].
      pose proof (Forall_inv Hl) as Ho. cbn in Ho. revert p Hp.
      refine (strict_ext (fun x y => exp (- (t * s x o)) * exp (- (t * s y o)) * exp (t * recentred o x y)) _ _ _ _ Hl ND Z).
      { intros x y _ _. rewrite <- !exp_plus. f_equal. unfold recentred. ring. }
      apply (strict_conj (fun x => exp (- (t * s x o)))); [intros x _; pose proof (exp_pos (- (t * s x o))); lra|].
      intros l' Hl' ND' Z'. apply (exp_definite dom (fun x y => t * recentred o x y)); try assumption.
      - intros x y Hx Hy. now rewrite (recentred_sym o x y).
      - apply psd_scale; [lra|]. now apply recentred_psd.
      - intros x y Hx Hy Hxy. pose proof (separated x y Hx Hy Hxy). unfold recentred. rewrite !Hz by assumption. nra.
    Qed.

    (** The logarithm. *)
    Definition riemann (n : nat) (u : R) : R :=
      let m := INR (S n) in sum_f_R0 (fun k => / m * (u * / (1 + INR (S k) * / m * u))) n.
    Lemma ln_step a b u : 0 <= a -> a < b -> 0 < u ->
      (b - a) * (u / (1 + b * u)) <= ln (1 + b * u) - ln (1 + a * u) <= (b - a) * (u / (1 + a * u)).
    Proof.
      intros Ha Hab Hu.
      destruct (MVT_cor2 (fun x => ln (1 + x * u)) (fun x => / (1 + x * u) * u) a b Hab) as (c & E & Hc).
      - intros c Hc. apply (derivable_pt_lim_comp (fun x => 1 + x * u) ln).
        + assert (D : derivable_pt_lim (fun x => 1 + x * u) c (0 + (1 * u + c * 0)));
            [|replace (0 + (1 * u + c * 0)) with u in D by ring; exact D].
          apply (derivable_pt_lim_plus (fun _ => 1) (fun x => x * u)); [apply derivable_pt_lim_const|].
          apply (derivable_pt_lim_mult (fun x => x) (fun _ => u)); [apply derivable_pt_lim_id|apply derivable_pt_lim_const].
        + apply derivable_pt_lim_ln. nra.
      - rewrite E. assert (0 < 1 + a * u) by nra. assert (0 < 1 + c * u) by nra.
        split; (rewrite (Rmult_comm _ (b - a)); apply Rmult_le_compat_l; [lra|]; unfold Rdiv; rewrite (Rmult_comm u);
                apply Rmult_le_compat_r; [lra|]; apply Rinv_le_contravar; nra).
    Qed.
    Lemma riemann_cv u : 0 <= u -> Un_cv (fun n => riemann n u) (ln (1 + u)).
    Proof.
      intros [Hu|<-].
      2: { apply (cv_rate _ _ 0). intros n. unfold riemann. rewrite Rplus_0_r, ln_1.
           rewrite (sum_eq _ (fun _ => 1 * 0)) by (intros; ring). rewrite <- scal_sum, Rmult_0_l, Rminus_0_r, Rabs_R0. lra. }
      apply (cv_rate _ _ u). intros n. unfold riemann. set (m := INR (S n)). assert (Hm : 0 < m) by (apply lt_0_INR; lia).
      assert (Hi : 0 < / m) by now apply Rinv_0_lt_compat.
      set (t := fun k => INR k * / m). assert (Ht : forall k, 0 <= t k) by (intros k; apply Rmult_le_pos; [apply pos_INR|lra]).
      assert (Hd : forall k, t (S k) - t k = / m) by (intros k; unfold t; rewrite S_INR; ring).
      assert (T0 : t O = 0) by (unfold t; cbn; ring). assert (TN : t (S n) = 1) by (unfold t; fold m; field; lra).
      set (g := fun k => / m * (u * / (1 + t k * u))).
      assert (St : forall k, g (S k) <= ln (1 + t (S k) * u) - ln (1 + t k * u) <= g k).
      { intros k. pose proof (ln_step (t k) (t (S k)) u (Ht k) ltac:(specialize (Hd k); lra) Hu) as P. rewrite Hd in P. exact P. }
      assert (Lo : sum_f_R0 (fun k => g (S k)) n <= ln (1 + u)).
      { pose proof (sum_telescope (fun k => ln (1 + t k * u)) n) as E. cbv beta in E. rewrite T0, TN, Rmult_0_l, Rplus_0_r, ln_1, Rmult_1_l, Rminus_0_r in E.
        rewrite <- E. apply sum_Rle. intros k _. apply St. }
      assert (Up : ln (1 + u) <= sum_f_R0 g n).
      { pose proof (sum_telescope (fun k => ln (1 + t k * u)) n) as E. cbv beta in E. rewrite T0, TN, Rmult_0_l, Rplus_0_r, ln_1, Rmult_1_l, Rminus_0_r in E.
        rewrite <- E. apply sum_Rle. intros k _. apply St. }
      assert (Df : sum_f_R0 g n - sum_f_R0 (fun k => g (S k)) n = g O - g (S n)).
      { rewrite <- minus_sum. rewrite (sum_eq _ (fun k => (- g (S k)) - (- g k))) by (intros; ring). rewrite (sum_telescope (fun k => - g k)). ring. }
      assert (G0 : g O <= u * / m) by (unfold g; rewrite T0, Rmult_0_l, Rplus_0_r, Rinv_1; lra).
      assert (GN : 0 <= g (S n)).
      { unfold g. apply Rmult_le_pos; [lra|]. apply Rmult_le_pos; [lra|]. left. apply Rinv_0_lt_compat. specialize (Ht (S n)). nra. }
      change (Rabs (sum_f_R0 (fun k => g (S k)) n - ln (1 + u)) <= u * / m).
      assert (0 <= u * / m) by (apply Rmult_le_pos; lra). apply Rabs_le. split; lra.
    Qed.

    Lemma log_mult c t : 0 < c -> 0 <= t -> multiplier dom (fun x y => exp (- (t * ln (s x y + c)))).
    Proof.
      intros Hc Ht.
      apply (mult_ext dom (fun x y => exp (- (t * ln c)) * exp (- (t * ln (1 + / c * s x y))))).
      { intros x y Hx Hy. pose proof (proj1 Hs x y Hx Hy). assert (0 < / c) by now apply Rinv_0_lt_compat.
        rewrite <- exp_plus. f_equal. replace (s x y + c) with (c * (1 + / c * s x y)) by (field; lra).
        rewrite ln_mult by nra. ring. }
      apply mult_scale; [left; apply exp_pos|].
      apply (mult_limit dom (fun n x y => exp (- (t * riemann n (/ c * s x y))))).
      - intros n. unfold riemann. set (m := INR (S n)). assert (Hm : 0 < m) by (apply lt_0_INR; lia).
        assert (Hi : 0 < / m) by now apply Rinv_0_lt_compat. set (u := fun k => INR (S k) * / m).
        assert (Hu : forall k, 0 < u k) by (intros k; apply Rmult_lt_0_compat; [apply lt_0_INR; lia|exact Hi]).
        apply (mult_ext dom (fun x y => exp (- (t * sum_f_R0 (fun k => / m * / u k) n)) *
                               exp (sum_f_R0 (fun k => (t * / m * / u k * (c * / u k)) * / (s x y + c * / u k)) n))).
        + intros x y Hx Hy. pose proof (proj1 Hs x y Hx Hy) as P. rewrite <- exp_plus. f_equal. rewrite !scal_sum.
          transitivity (- (sum_f_R0 (fun k => / m * / u k * t) n - sum_f_R0 (fun k => (t * / m * / u k * (c * / u k)) * / (s x y + c * / u k)) n)); [ring|].
          f_equal. rewrite <- minus_sum. apply sum_eq. intros k _. fold (u k). pose proof (Hu k).
          field. repeat split; try lra; apply Rgt_not_eq; nra.
        + apply mult_scale; [left; apply exp_pos|].
          apply (mult_exp dom (fun x y => sum_f_R0 (fun k => (t * / m * / u k * (c * / u k)) * / (s x y + c * / u k)) n)).
          apply (mult_sum dom (fun k x y => (t * / m * / u k * (c * / u k)) * / (s x y + c * / u k))). intros k.
          assert (0 < / u k) by now apply Rinv_0_lt_compat.
          apply mult_scale; [repeat apply Rmult_le_pos; lra|]. apply (inverse_mult dom s Hs). now apply Rmult_lt_0_compat.
      - intros x y Hx Hy. pose proof (proj1 Hs x y Hx Hy).
        apply (continuity_seq (fun u => exp (- (t * u))) (fun n => riemann n (/ c * s x y))).
        + apply derivable_continuous_pt. exists (exp (- (t * ln (1 + / c * s x y))) * - (t * 1)).
          apply (derivable_pt_lim_comp (fun u => - (t * u)) exp).
          * apply derivable_pt_lim_opp, derivable_pt_lim_scal, derivable_pt_lim_id.
          * apply derivable_pt_lim_exp.
        + apply riemann_cv. apply Rmult_le_pos; [left; now apply Rinv_0_lt_compat|assumption].
    Qed.
  End Exponential.
End Functions.
