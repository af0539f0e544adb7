(** Positive definite functions: the product of positive semi-definite functions, the
    exponential of a function that tells points apart, solving the linear system.
    Proofs. *)
From Verif Require Import Base RVec RVecProofs KernelR KernelRSpec Psd KernelRProofs Multiplier DefiniteSpec.
Open Scope R_scope.

Definition prod (l : vec) : R := fold_right Rmult 1 l.
Lemma prod_cons a l : prod (a :: l) = a * prod l.
Proof. reflexivity. Qed.

Section Definite.
  Context {X : Type}.
  Variable dom : X -> Prop.

  Definition over_dom (l : list (R * X)) : Prop := Forall (fun p => dom (snd p)) l.
  Definition symmetric (f : X -> X -> R) : Prop := forall x y, dom x -> dom y -> f x y = f y x.
  Definition linear (h : X -> R) (l : list (R * X)) : R := sum (map (fun p => fst p * h (snd p)) l).
  Definition reweight (h : X -> R) (l : list (R * X)) : list (R * X) := map (fun p => (fst p * h (snd p), snd p)) l.

  Lemma over_dom_In l p : over_dom l -> In p l -> dom (snd p).
  Proof. intros H Hp. exact (proj1 (Forall_forall _ _) H p Hp). Qed.
  Lemma over_dom_reweight h l : over_dom l -> over_dom (reweight h l).
  Proof. intros H. apply Forall_map. exact H. Qed.

  Lemma linear_ext g h l : over_dom l -> (forall x, dom x -> g x = h x) -> linear g l = linear h l.
  Proof.
    intros Hl E. apply sum_map_ext. intros p Hp. rewrite E; [reflexivity|]. now apply (over_dom_In l).
  Qed.
  Lemma linear_plus g h l : linear (fun x => g x + h x) l = linear g l + linear h l.
  Proof. unfold linear. rewrite <- sum_map_plus. apply sum_map_ext. intros. ring. Qed.
  Lemma linear_scale a h l : linear (fun x => a * h x) l = a * linear h l.
  Proof. unfold linear. rewrite <- sum_map_scal. apply sum_map_ext. intros. ring. Qed.
  Lemma linear_reweight g h l : linear g (reweight h l) = linear (fun x => h x * g x) l.
  Proof. unfold linear, reweight. rewrite map_map. apply sum_map_ext. intros p _. cbn [fst snd]. ring. Qed.

  Lemma qsum_cons (f : X -> X -> R) a o l : over_dom ((a, o) :: l) -> symmetric f ->
    qsum f ((a, o) :: l) = a * a * f o o + 2 * a * linear (fun x => f x o) l + qsum f l.
  Proof.
    intros Hl Sf. pose proof (Forall_inv Hl) as Ho. cbn in Ho. pose proof (Forall_inv_tail Hl) as Hr.
    unfold qsum at 1. cbn [map fst snd]. rewrite !sum_cons.
    rewrite (sum_map_ext (fun q => a * fst q * f o (snd q)) (fun q => a * (fst q * f (snd q) o))).
    2: { intros q Hq. rewrite (Sf o (snd q)); [ring|exact Ho|now apply (over_dom_In l)]. }
    rewrite sum_map_scal. fold (linear (fun x => f x o) l).
    rewrite (sum_map_ext _ (fun p => a * (fst p * f (snd p) o) + sum (map (fun q => fst p * fst q * f (snd p) (snd q)) l))).
    2: { intros p _. rewrite sum_cons. ring. }
    rewrite sum_map_plus, sum_map_scal. fold (linear (fun x => f x o) l). unfold qsum. ring.
  Qed.

  Lemma qsum_plus (f g : X -> X -> R) l : qsum (fun x y => f x y + g x y) l = qsum f l + qsum g l.
  Proof.
    unfold qsum. rewrite <- sum_map_plus. apply sum_map_ext. intros p _. rewrite <- sum_map_plus.
    apply sum_map_ext. intros q _. ring.
  Qed.
  Lemma qsum_scale a (f : X -> X -> R) l : qsum (fun x y => a * f x y) l = a * qsum f l.
  Proof.
    unfold qsum. rewrite <- sum_map_scal. apply sum_map_ext. intros p _. rewrite <- sum_map_scal.
    apply sum_map_ext. intros q _. ring.
  Qed.
  Lemma qsum_conj (g : X -> R) (f : X -> X -> R) l : qsum (fun x y => g x * g y * f x y) l = qsum f (reweight g l).
  Proof.
    unfold qsum, reweight. rewrite map_map. apply sum_map_ext. intros p _. rewrite map_map. apply sum_map_ext. intros q _.
    cbn [fst snd]. ring.
  Qed.
  Lemma qsum_one (l : list (R * X)) : qsum (fun _ _ => 1) l = linear (fun _ => 1) l * linear (fun _ => 1) l.
  Proof.
    unfold linear. rewrite <- sum_map_scal. apply sum_map_ext. intros p _.
    transitivity (fst p * sum (map (fun q => fst q * 1) l)); [|ring]. rewrite <- sum_map_scal. apply sum_map_ext. intros q _. ring.
  Qed.
  Lemma qsum_dom_ext (f g : X -> X -> R) l : over_dom l -> (forall x y, dom x -> dom y -> f x y = g x y) -> qsum f l = qsum g l.
  Proof. intros Hl E. apply qsum_ext. intros p q Hp Hq. apply E; now apply (over_dom_In l). Qed.

  (** ** Completing the square *)

  Definition residual (f : X -> X -> R) (o x y : X) : R := f x y - f x o * f y o / f o o.

  Lemma residual_split f o x y : 0 < f o o -> f x y = residual f o x y + / f o o * (f x o * f y o * 1).
  Proof. intros H. unfold residual. field. lra. Qed.
  Lemma residual_sym f o : symmetric f -> symmetric (residual f o).
  Proof. intros S x y Hx Hy. unfold residual. rewrite (S x y) by assumption. unfold Rdiv. ring. Qed.
  Lemma residual_centre f o x : symmetric f -> dom o -> dom x -> 0 < f o o -> residual f o x o = 0.
  Proof. intros S Ho Hx H. unfold residual. field. lra. Qed.

  Lemma residual_qsum f o l : symmetric f -> dom o -> over_dom l -> 0 < f o o ->
    qsum (residual f o) l = qsum f ((- (linear (fun x => f x o) l / f o o), o) :: l).
  Proof.
    intros S Ho Hl H. rewrite qsum_cons by (try exact S; now constructor).
    assert (E : qsum f l = qsum (residual f o) l + / f o o * (linear (fun x => f x o) l * linear (fun x => f x o) l)).
    { rewrite (qsum_ext f (fun x y => residual f o x y + / f o o * (f x o * f y o * 1))) by (intros; now apply residual_split).
      rewrite qsum_plus, qsum_scale, (qsum_conj (fun x => f x o) (fun _ _ => 1)), qsum_one, linear_reweight.
      rewrite (linear_ext (fun x => f x o * 1) (fun x => f x o)) by (try exact Hl; intros; ring). reflexivity. }
    rewrite E. field. lra.
  Qed.
  Lemma residual_psd f o : symmetric f -> psd_on dom f -> dom o -> 0 < f o o -> psd_on dom (residual f o).
  Proof.
    intros S H Ho Hp. apply psd_qsum. intros l Hl. rewrite residual_qsum by assumption.
    apply (proj1 (psd_qsum dom f)); [exact H|]. now constructor.
  Qed.

  Lemma psd_diagonal f x : psd_on dom f -> dom x -> 0 <= f x x.
  Proof.
    intros H Hx. pose proof (proj1 (psd_qsum dom f) H [(1, x)] ltac:(repeat constructor; exact Hx)) as Q.
    unfold qsum in Q. cbn in Q. lra.
  Qed.
  Lemma psd_null_row f o x : symmetric f -> psd_on dom f -> dom o -> dom x -> f o o = 0 -> f x o = 0.
  Proof.
    intros S H Ho Hx E. destruct (Req_dec (f x o) 0) as [Z|N]; [exact Z|exfalso].
    pose proof (proj1 (psd_qsum dom f) H [(- (f x x + 1) / (2 * f x o), o); (1, x)] ltac:(repeat constructor; assumption)) as Q.
    rewrite qsum_cons in Q by (try exact S; repeat constructor; assumption). unfold linear, qsum in Q. cbn in Q.
    rewrite E in Q. replace (2 * (- (f x x + 1) / (2 * f x o)) * (1 * f x o + 0)) with (- (f x x + 1)) in Q by (field; exact N). lra.
  Qed.

  (** ** The product of two positive semi-definite functions *)

  Theorem schur f : symmetric f -> psd_on dom f -> multiplier dom f.
  Proof.
    intros S H g Hg. apply psd_qsum. intros l. revert f S H. induction l as [|[a o] l IH]; intros f S H Hl.
    { unfold qsum. cbn. lra. }
    pose proof (Forall_inv Hl) as Ho. cbn in Ho. pose proof (Forall_inv_tail Hl) as Hr.
    assert (Drop : forall f', symmetric f' -> (forall x, dom x -> f' x o = 0) ->
              qsum (fun x y => f' x y * g x y) ((a, o) :: l) = qsum (fun x y => f' x y * g x y) l).
    { intros f' S' Z. unfold qsum. cbn [map fst snd]. rewrite !sum_cons, (Z o Ho).
      rewrite (sum_map_ext (fun q => a * fst q * (f' o (snd q) * g o (snd q))) (fun _ => 0)), sum_map_const.
      2: { intros q Hq. rewrite (S' o (snd q)), Z; [ring|now apply (over_dom_In l)|exact Ho|now apply (over_dom_In l)]. }
      match goal with |- ?z + _ = ?r => transitivity (0 + r); [|ring] end. f_equal; [ring|].
      apply sum_map_ext. intros p Hp. cbn [fst snd]. rewrite sum_cons, Z; [ring|now apply (over_dom_In l)]. }
    destruct (psd_diagonal f o H Ho) as [P|Z].
    - rewrite (qsum_ext _ (fun x y => residual f o x y * g x y + / f o o * (f x o * f y o * g x y))).
      2: { intros p q _ _. rewrite (residual_split f o (snd p) (snd q) P) at 1. ring. }
      rewrite qsum_plus, qsum_scale, (qsum_conj (fun x => f x o) g).
      rewrite Drop by (try (now apply residual_sym); intros; now apply residual_centre).
      assert (0 <= qsum (fun x y => residual f o x y * g x y) l).
      { apply IH; [now apply residual_sym|now apply residual_psd|exact Hr]. }
      assert (0 <= qsum g (reweight (fun x => f x o) ((a, o) :: l))).
      { apply (proj1 (psd_qsum dom g) Hg). now apply over_dom_reweight. }
      assert (0 < / f o o) by now apply Rinv_0_lt_compat. nra.
    - rewrite Drop; [now apply IH|exact S|]. intros x Hx. now apply psd_null_row.
  Qed.

  (** A vanishing quadratic form of a product. *)
  Lemma null_factor f g o l : symmetric f -> psd_on dom f -> psd_on dom g -> dom o -> over_dom l ->
    qsum (fun x y => f x y * g x y) l = 0 -> qsum g (reweight (fun x => f x o) l) = 0.
  Proof.
    intros S H Hg Ho Hl E. destruct (psd_diagonal f o H Ho) as [P|Z].
    - rewrite (qsum_ext _ (fun x y => residual f o x y * g x y + / f o o * (f x o * f y o * g x y))) in E.
      2: { intros p q _ _. rewrite (residual_split f o (snd p) (snd q) P) at 1. ring. }
      rewrite qsum_plus, qsum_scale, (qsum_conj (fun x => f x o) g) in E.
      assert (0 <= qsum (fun x y => residual f o x y * g x y) l).
      { apply (proj1 (psd_qsum dom _)); [|exact Hl]. apply schur; [now apply residual_sym|now apply residual_psd|exact Hg]. }
      assert (0 <= qsum g (reweight (fun x => f x o) l)).
      { apply (proj1 (psd_qsum dom g) Hg). now apply over_dom_reweight. }
      assert (0 < / f o o) by now apply Rinv_0_lt_compat. nra.
    - rewrite <- qsum_conj. rewrite (qsum_dom_ext _ (fun _ _ => 0 * 0) l Hl).
      + rewrite qsum_scale. ring.
      + intros x y Hx Hy. rewrite (psd_null_row f o x) by (assumption || now symmetry). ring.
  Qed.

  (** ** Functions that vanish against the coefficients *)

  Section Kills.
    Variable f : X -> X -> R.
    Hypothesis Sf : symmetric f.
    Hypothesis Hf : psd_on dom f.

    Definition kills (n : nat) (l : list (R * X)) : Prop :=
      forall ys, Forall dom ys -> (length ys <= n)%nat -> linear (fun x => prod (map (f x) ys)) l = 0.

    Lemma power_psd k : psd_on dom (fun x y => f x y ^ k).
    Proof. apply mult_psd, mult_pow. now apply schur. Qed.

    Lemma power_kills ys l : Forall dom ys -> over_dom l -> qsum (fun x y => f x y ^ length ys) l = 0 ->
      linear (fun x => prod (map (f x) ys)) l = 0.
    Proof.
      revert l. induction ys as [|o ys IH]; intros l Hy Hl E.
      - cbn [length pow map prod fold_right] in *. rewrite qsum_one in E.
        destruct (Rmult_integral _ _ E) as [Z|Z]; exact Z.
      - pose proof (Forall_inv Hy) as Ho. cbn [length pow] in E.
        pose proof (null_factor f (fun x y => f x y ^ length ys) o l Sf Hf (power_psd _) Ho Hl E) as N.
        apply IH in N; [|exact (Forall_inv_tail Hy)|now apply over_dom_reweight].
        rewrite linear_reweight in N. exact N.
    Qed.

    Lemma kills_affine n u v b l : dom u -> dom v -> over_dom l -> kills (S n) l ->
      kills n (reweight (fun x => f x u - f x v - b) l).
    Proof.
      intros Hu Hv Hl K ys Hy Hn. rewrite linear_reweight.
      rewrite (linear_ext _ (fun x => prod (map (f x) (u :: ys)) + (-1 * prod (map (f x) (v :: ys)) + - b * prod (map (f x) ys))) l Hl).
      - rewrite linear_plus, linear_plus, !linear_scale.
        rewrite (K (u :: ys)), (K (v :: ys)), (K ys); try ring; try assumption; try (constructor; assumption); cbn [length]; lia.
      - intros x _. cbn [map prod fold_right]. fold (prod (map (f x) ys)). ring.
    Qed.

    (** The factor that vanishes at [j] and not at [o]. *)
    Definition factor (o j x : X) : R := f x o - f x j - (f j o - f j j).

    Fixpoint reweights (o : X) (js : list X) (l : list (R * X)) : list (R * X) :=
      match js with [] => l | j :: js' => reweights o js' (reweight (factor o j) l) end.
    Lemma reweights_linear o js l h :
      linear h (reweights o js l) = linear (fun x => prod (map (fun j => factor o j x) js) * h x) l.
    Proof.
      revert l. induction js as [|j js IH]; intros l; cbn [reweights map].
      - apply sum_map_ext. intros p _. unfold prod. cbn. ring.
      - rewrite IH, linear_reweight. apply sum_map_ext. intros p _. rewrite prod_cons. ring.
    Qed.
    Lemma reweights_kills o js l n : dom o -> Forall dom js -> over_dom l -> kills (length js + n) l -> kills n (reweights o js l).
    Proof.
      intros Ho. revert l. induction js as [|j js IH]; intros l Hj Hl K; cbn [reweights]; [exact K|].
      apply IH; [exact (Forall_inv_tail Hj)|now apply over_dom_reweight|].
      apply (kills_affine (length js + n) o j (f j o - f j j)); [exact Ho|exact (Forall_inv Hj)|exact Hl|exact K].
    Qed.

    Lemma prod_zero a l : In a l -> a = 0 -> prod l = 0.
    Proof.
      intros H ->. induction l as [|b l IH]; [destruct H|]. cbn [prod fold_right]. fold (prod l).
      destruct H as [->|H]; [ring|]. rewrite IH by exact H. ring.
    Qed.
    Lemma prod_nonzero l : Forall (fun a => a <> 0) l -> prod l <> 0.
    Proof.
      induction 1 as [|a l Ha _ IH]; cbn [prod fold_right]; [lra|]. now apply Rmult_integral_contrapositive_currified.
    Qed.

    Variable separated : forall x y, dom x -> dom y -> x <> y -> 0 < f x x + f y y - 2 * f x y.

    Theorem kills_all n l : over_dom l -> NoDup (map snd l) -> (length l <= S n)%nat -> kills n l ->
      forall p, In p l -> fst p = 0.
    Proof.
      intros Hl ND Hn K [a o] Hp. cbn [fst]. apply in_split in Hp as (l1 & l2 & ->).
      set (js := map snd (l1 ++ l2)).
      assert (Hjs : Forall dom js).
      { apply Forall_map. apply Forall_app in Hl as [H1 H2]. apply Forall_app. split; [exact H1|exact (Forall_inv_tail H2)]. }
      assert (Ho : dom o) by (apply (over_dom_In _ (a, o) Hl), in_elt).
      assert (No : ~ In o js).
      { unfold js. rewrite map_app in *. cbn [map snd] in ND. now apply NoDup_remove_2 in ND. }
      assert (Len : length js = (length l1 + length l2)%nat) by (unfold js; now rewrite map_length, app_length).
      rewrite app_length in Hn. cbn [length] in Hn.
      assert (K0 : kills 0 (reweights o js (l1 ++ (a, o) :: l2))).
      { apply reweights_kills; [exact Ho|exact Hjs|exact Hl|]. intros ys Hy Hy'. apply K; [exact Hy|lia]. }
      specialize (K0 [] (Forall_nil _) (le_n 0)). rewrite reweights_linear in K0. unfold linear in K0.
      rewrite map_app, sum_app in K0. cbn [map fst snd] in K0. rewrite sum_cons in K0.
      assert (Z : forall l', (forall p, In p l' -> In (snd p) js) ->
        sum (map (fun p : R * X => fst p * (prod (map (fun j => factor o j (snd p)) js) * prod [])) l') = 0).
      { intros l' Hin. rewrite (sum_map_ext _ (fun _ => 0)), sum_map_const; [ring|]. intros p Hp.
        rewrite (prod_zero 0 (map (fun j => factor o j (snd p)) js)); [ring| |reflexivity].
        apply in_map_iff. exists (snd p). split; [unfold factor; ring|now apply Hin]. }
      rewrite (Z l1), (Z l2) in K0.
      2, 3: intros p Hp; unfold js; apply in_map; apply in_or_app; (now left) || (now right).
      cbn [map] in K0.
      assert (P : prod (map (fun j => factor o j o) js) <> 0).
      { apply prod_nonzero. apply Forall_map. apply Forall_forall. intros j Hj.
        assert (Hd : dom j) by exact (proj1 (Forall_forall _ _) Hjs j Hj).
        assert (o <> j) by (intros <-; contradiction). pose proof (separated o j Ho Hd H). unfold factor.
        rewrite (Sf j o Hd Ho). lra. }
      assert (a * prod (map (fun j => factor o j o) js) = 0) by (change (prod []) with 1 in K0; lra).
      destruct (Rmult_integral _ _ H) as [?|?]; [assumption|contradiction].
    Qed.

    (** The exponential. *)
    Lemma exp_term_psd k : psd_on dom (fun x y => exp (f x y) + - (/ INR (fact k) * f x y ^ k)).
    Proof.
      set (term := fun k x y => / INR (fact k) * f x y ^ k).
      assert (T : forall k, psd_on dom (term k)).
      { intros i. apply psd_scale; [left; apply Rinv_0_lt_compat, INR_fact_lt_0|apply power_psd]. }
      apply (psd_limit dom (fun n x y => sum_f_R0 (fun i => term i x y) (n + k) + - term k x y)).
      - assert (B : psd_on dom (fun x y => sum_f_R0 (fun i => term i x y) k + - term k x y)).
        { destruct k as [|k].
          - apply (psd_ext dom (fun x y => 0 * 1)); [intros; cbn; ring|]. apply psd_scale; [lra|apply psd_one].
          - apply (psd_ext dom (fun x y => sum_f_R0 (fun i => term i x y) k)); [intros; cbn; ring|].
            induction k as [|k IH]; [exact (T O)|]. exact (psd_plus dom _ _ IH (T (S k))). }
        intros n. induction n as [|n IH]; [exact B|].
        apply (psd_ext dom (fun x y => (sum_f_R0 (fun i => term i x y) (n + k) + - term k x y) + term (S (n + k)) x y));
          [intros; cbn [Nat.add sum_f_R0]; ring|]. exact (psd_plus dom _ _ IH (T _)).
      - intros x y _ _. apply (CV_plus (fun n => sum_f_R0 (fun i => term i x y) (n + k)) (fun _ => - term k x y)); [|apply cv_const].
        pose proof (E1_cvg (f x y)) as C. intros e He. destruct (C e He) as (N & HN). exists N. intros n Hn.
        apply (HN (n + k)%nat). lia.
    Qed.
    Lemma exp_null l : over_dom l -> qsum (fun x y => exp (f x y)) l = 0 -> forall k, qsum (fun x y => f x y ^ k) l = 0.
    Proof.
      intros Hl E k. pose proof (proj1 (psd_qsum dom _) (exp_term_psd k) l Hl) as P.
      pose proof (proj1 (psd_qsum dom _) (power_psd k) l Hl) as Q.
      rewrite (qsum_ext _ (fun x y => exp (f x y) + -1 * (/ INR (fact k) * f x y ^ k))) in P by (intros; ring).
      rewrite qsum_plus, qsum_scale, qsum_scale, E in P.
      assert (0 < / INR (fact k)) by (apply Rinv_0_lt_compat, INR_fact_lt_0). nra.
    Qed.
    Theorem exp_definite l : over_dom l -> NoDup (map snd l) -> qsum (fun x y => exp (f x y)) l = 0 ->
      forall p, In p l -> fst p = 0.
    Proof.
      intros Hl ND E. apply (kills_all (length l)); [exact Hl|exact ND|lia|].
      intros ys Hy _. apply power_kills; [exact Hy|exact Hl|]. now apply exp_null.
    Qed.
  End Kills.
End Definite.
