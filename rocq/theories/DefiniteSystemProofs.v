(** Positive definite kernel matrices: logistic and polynomial kernels, matrices and
    linear systems.  Proofs. *)
From Verif Require Import Base RVec RVecProofs KernelR KernelRSpec Psd KernelRProofs Multiplier PsdKernelProofs.
From Verif Require Import DefiniteSpec DefiniteProofs DefiniteKernelProofs.
Open Scope R_scope.

Section Cosh.
  Context {X : Type}.
  Variable dom : X -> Prop.
  Variable s : X -> X -> R.
  Hypothesis Hs : exponentials dom s.

  Lemma cosh_log (Y : X -> X -> R) (k : R) : 0 < k ->
    (forall x y, dom x -> dom y -> 2 * cosh (Y x y) = 2 + k * s x y) ->
    forall j c t, -1 < c <= 1 -> 0 <= t -> multiplier dom (fun x y => exp (- (t * ln (2 * cosh (2 ^ j * Y x y) + 2 * c)))).
  Proof.
    intros Hk HY. induction j as [|j IH]; intros c t Hc Ht.
    - apply (mult_ext dom (fun x y => exp (- (t * ln k)) * exp (- (t * ln (s x y + (2 + 2 * c) / k))))).
      + intros x y Hx Hy. cbn [pow]. rewrite Rmult_1_l, HY by assumption.
        pose proof (proj1 Hs x y Hx Hy). rewrite <- exp_plus. f_equal.
        replace (2 + k * s x y + 2 * c) with (k * (s x y + (2 + 2 * c) / k)) by (field; lra).
        rewrite ln_mult; [ring|exact Hk|]. assert (0 < (2 + 2 * c) / k) by (apply Rdiv_lt_0_compat; lra). lra.
      + apply mult_scale; [left; apply exp_pos|]. apply (log_mult dom s Hs); [|exact Ht]. apply Rdiv_lt_0_compat; lra.
    - set (e := sqrt ((1 - c) / 2)).
      assert (He : e * e = (1 - c) / 2) by (apply sqrt_sqrt; lra).
      assert (H0 : 0 <= e) by apply sqrt_pos. assert (H1 : e < 1) by nra.
      apply (mult_ext dom (fun x y => exp (- (t * ln (2 * cosh (2 ^ j * Y x y) + 2 * - e))) * exp (- (t * ln (2 * cosh (2 ^ j * Y x y) + 2 * e))))).
      + intros x y _ _. rewrite <- exp_plus. f_equal. cbn [pow]. rewrite Rmult_assoc, cosh_double.
        pose proof (cosh_pos (2 ^ j * Y x y)) as P. set (q := cosh (2 ^ j * Y x y)) in *.
        replace (4 * (q * q) - 2 + 2 * c) with ((2 * q + 2 * - e) * (2 * q + 2 * e)) by nra.
        rewrite ln_mult by lra. ring.
      + apply mult_mult; apply IH; lra.
  Qed.

  Definition log_logistic (a : R) (x y : X) : R :=
    ln (2 * cosh (a * sqrt (s x y)) + 2 * 1) - ln 4.
  Lemma cosh_gt x : 0 < x -> 1 < cosh x.
  Proof.
    intros Hx. unfold cosh. assert (exp x * exp (- x) = 1) by (rewrite <- exp_plus, Rplus_opp_r; apply exp_0).
    pose proof (exp_increasing (- x) x ltac:(lra)). pose proof (exp_pos (- x)).
    set (p := exp x) in *. set (q := exp (- x)) in *. assert (4 < (p + q) * (p + q)) by nra. nra.
  Qed.
  Lemma log_logistic_pos a x y : 0 <= log_logistic a x y.
  Proof.
    unfold log_logistic. pose proof (cosh_pos (a * sqrt (s x y))) as P.
    destruct (Rle_lt_or_eq_dec 4 (2 * cosh (a * sqrt (s x y)) + 2 * 1) ltac:(lra)) as [L|E].
    - pose proof (ln_increasing 4 _ ltac:(lra) L). lra.
    - rewrite <- E. lra.
  Qed.
  Lemma log_logistic_gt a x y : 0 < a -> 0 < s x y -> 0 < log_logistic a x y.
  Proof.
    intros Ha H. unfold log_logistic. pose proof (cosh_gt (a * sqrt (s x y)) ltac:(apply Rmult_lt_0_compat; [exact Ha|now apply sqrt_lt_R0])).
    pose proof (ln_increasing 4 (2 * cosh (a * sqrt (s x y)) + 2 * 1) ltac:(lra) ltac:(lra)). lra.
  Qed.
  Lemma log_logistic_zero a x y : s x y = 0 -> log_logistic a x y = 0.
  Proof.
    intros E. unfold log_logistic. rewrite E, sqrt_0, Rmult_0_r. unfold cosh. rewrite Ropp_0, exp_0.
    replace (2 * ((1 + 1) / 2) + 2 * 1) with 4 by field. ring.
  Qed.
  Lemma log_logistic_value a x y :
    exp (- (1 * log_logistic a x y)) = 4 * / (exp (a * sqrt (s x y)) + exp (- (a * sqrt (s x y))) + 2).
  Proof.
    unfold log_logistic. pose proof (cosh_pos (a * sqrt (s x y))) as P. set (r := a * sqrt (s x y)) in *.
    replace (exp r + exp (- r) + 2) with (2 * cosh r + 2 * 1) by (unfold cosh; field).
    replace (- (1 * (ln (2 * cosh r + 2 * 1) - ln 4))) with (ln 4 + - ln (2 * cosh r + 2 * 1)) by ring.
    rewrite exp_plus, exp_Ropp, !exp_ln by lra. reflexivity.
  Qed.

  Lemma log_logistic_exponentials a : 0 < a -> exponentials dom (log_logistic a).
  Proof.
    intros Ha. split; [intros; apply log_logistic_pos|]. intros t Ht.
    apply (mult_ext dom (fun x y => exp (t * ln 4) * exp (- (t * ln (2 * cosh (a * sqrt (s x y)) + 2 * 1))))).
    { intros x y _ _. rewrite <- exp_plus. f_equal. unfold log_logistic. ring. }
    apply mult_scale; [left; apply exp_pos|].
    apply (mult_limit dom (fun j x y => exp (- (t * ln (2 * cosh (2 ^ j * (2 * arcsinh (a * sqrt (s x y) / 2 ^ S j))) + 2 * 1))))).
    - intros j. apply (cosh_log (fun x y => 2 * arcsinh (a * sqrt (s x y) / 2 ^ S j)) (4 * (a / 2 ^ S j * (a / 2 ^ S j)))).
      + assert (0 < 2 ^ S j) by (apply pow_lt; lra). assert (0 < a / 2 ^ S j) by now apply Rdiv_lt_0_compat. nra.
      + intros x y Hx Hy. rewrite cosh_half_sinh, sinh_arcsinh. unfold Rdiv.
        pose proof (sqrt_sqrt (s x y) (proj1 Hs x y Hx Hy)) as E. rewrite <- E at 3. ring.
      + lra.
      + exact Ht.
    - intros x y _ _. set (r := a * sqrt (s x y)).
      apply (continuity_seq (fun u => exp (- (t * ln (2 * cosh u + 2 * 1)))) (fun j => 2 ^ j * (2 * arcsinh (r / 2 ^ S j)))); [|apply arcsinh_cv].
      pose proof (cosh_pos r) as P.
      apply derivable_continuous_pt. exists (exp (- (t * ln (2 * cosh r + 2 * 1))) * - (t * (/ (2 * cosh r + 2 * 1) * (2 * sinh r + 0)))).
      apply (derivable_pt_lim_comp (fun u => - (t * ln (2 * cosh u + 2 * 1))) exp); [|apply derivable_pt_lim_exp].
      apply (derivable_pt_lim_opp (fun u => t * ln (2 * cosh u + 2 * 1))).
      apply (derivable_pt_lim_scal (fun u => ln (2 * cosh u + 2 * 1))).
      apply (derivable_pt_lim_comp (fun u => 2 * cosh u + 2 * 1) ln).
      + apply (derivable_pt_lim_plus (fun u => 2 * cosh u) (fun _ => 2 * 1)); [|apply derivable_pt_lim_const].
        apply (derivable_pt_lim_scal cosh). apply derivable_pt_lim_cosh.
      + apply derivable_pt_lim_ln. lra.
  Qed.
End Cosh.

(** ** Polynomials *)

Section Polynomial.
  Context {X : Type}.
  Variable dom : X -> Prop.
  Variable f : X -> X -> R.
  Hypothesis Sf : symmetric dom f.
  Hypothesis Hf : psd_on dom f.
  Hypothesis separated : forall x y, dom x -> dom y -> x <> y -> 0 < f x x + f y y - 2 * f x y.

  Lemma shifted_sym beta : symmetric dom (fun x y => f x y + beta).
  Proof. intros x y Hx Hy. now rewrite Sf. Qed.
  Lemma shifted_psd beta : 0 <= beta -> psd_on dom (fun x y => f x y + beta).
  Proof.
    intros Hb. apply (psd_plus dom f (fun _ _ => beta)); [exact Hf|].
    apply (psd_ext dom (fun _ _ => beta * 1)); [intros; ring|]. apply psd_scale; [exact Hb|apply psd_one].
  Qed.
  Lemma lower_power beta k l : 0 < beta -> over_dom dom l -> qsum (fun x y => (f x y + beta) ^ S k) l = 0 ->
    qsum (fun x y => (f x y + beta) ^ k) l = 0.
  Proof.
    intros Hb Hl Z. rewrite (qsum_ext _ (fun x y => f x y * (f x y + beta) ^ k + beta * (f x y + beta) ^ k)) in Z by (intros; cbn; ring).
    rewrite qsum_plus, qsum_scale in Z.
    pose proof (power_psd dom (fun x y => f x y + beta) (shifted_sym beta) (shifted_psd beta ltac:(lra)) k) as P.
    assert (0 <= qsum (fun x y => f x y * (f x y + beta) ^ k) l).
    { apply (proj1 (psd_qsum dom _)); [|exact Hl]. now apply (schur dom f Sf Hf). }
    assert (0 <= qsum (fun x y => (f x y + beta) ^ k) l) by (now apply (proj1 (psd_qsum dom _))). nra.
  Qed.
  Theorem polynomial_strict beta degree l : 0 < beta -> over_dom dom l -> NoDup (map snd l) -> (length l <= S degree)%nat ->
    qsum (fun x y => (f x y + beta) ^ degree) l = 0 -> forall p, In p l -> fst p = 0.
  Proof.
    intros Hb Hl ND Hn Z. apply (kills_all dom (fun x y => f x y + beta) (shifted_sym beta)) with (n := degree); try assumption.
    - intros x y Hx Hy Hxy. pose proof (separated x y Hx Hy Hxy). lra.
    - intros ys Hy Hk. apply (power_kills dom (fun x y => f x y + beta) (shifted_sym beta) (shifted_psd beta ltac:(lra))); [exact Hy|exact Hl|].
      assert (All : forall i k, (k + i = degree)%nat -> qsum (fun x y => (f x y + beta) ^ k) l = 0).
      { induction i as [|i IH]; intros k E.
        - replace k with degree by lia. exact Z.
        - apply lower_power; [exact Hb|exact Hl|]. apply IH. lia. }
      apply (All (degree - length ys)%nat). lia.
  Qed.
End Polynomial.

(** ** Matrices *)

Section Matrices.
  Context {X : Type}.
  Variable dom : X -> Prop.
  Variable f : X -> X -> R.

  Lemma matrix_definite s : Forall dom s -> psd_on dom f ->
    (forall l, map snd l = s -> qsum f l = 0 -> forall p, In p l -> fst p = 0) -> definite (matrix_of f s).
  Proof.
    intros Hs Hf H c Hc (a & Ha & Na). unfold matrix_of in Hc. rewrite map_length in Hc.
    destruct (Hf s c Hs Hc) as [P|Z]; [exact P|exfalso]. rewrite quadratic_qsum in Z by exact Hc.
    assert (E : map snd (combine c s) = s).
    { clear - Hc. revert s Hc. induction c as [|b c IH]; intros [|x s] Hc; try discriminate Hc; [reflexivity|]. cbn. now rewrite IH by (now injection Hc). }
    assert (F : map fst (combine c s) = c).
    { clear - Hc. revert s Hc. induction c as [|b c IH]; intros [|x s] Hc; try discriminate Hc; [reflexivity|]. cbn. now rewrite IH by (now injection Hc). }
    rewrite <- F in Ha. apply in_map_iff in Ha as (p & Ep & Hp). apply Na. rewrite <- Ep. exact (H _ E (eq_sym Z) p Hp).
  Qed.

  Lemma qsum_linear l : qsum f l = linear (fun x => linear (f x) l) l.
  Proof.
    unfold qsum, linear. apply sum_map_ext. intros p _. rewrite <- sum_map_scal. apply sum_map_ext. intros q _. ring.
  Qed.
  Lemma linear_app (h : X -> R) l m : linear h (l ++ m) = linear h l + linear h m.
  Proof. unfold linear. now rewrite map_app, sum_app. Qed.
  Lemma linear_zeros (h : X -> R) (s : list X) : linear h (map (fun x => (0, x)) s) = 0.
  Proof.
    unfold linear. rewrite map_map. rewrite (sum_map_ext _ (fun _ => 0)), sum_map_const; [ring|]. intros x _. cbn. ring.
  Qed.

  Theorem definite_distinct s : definite (matrix_of f s) -> NoDup s.
  Proof.
    intros H.
    assert (Q : forall l, map snd l = s -> (exists p, In p l /\ fst p <> 0) -> 0 < qsum f l).
    { intros l <- (p & Hp & Np). assert (E : combine (map fst l) (map snd l) = l).
      { clear. induction l as [|[a x] l IH]; [reflexivity|]. cbn. now rewrite IH. }
      rewrite <- E. rewrite <- quadratic_qsum by (now rewrite !map_length). apply H.
      - unfold matrix_of. now rewrite !map_length.
      - exists (fst p). split; [now apply in_map|exact Np]. }
    clear H. induction s as [|x s IH]; [constructor|]. constructor.
    - intros Hx. apply in_split in Hx as (s1 & s2 & ->).
      set (l := (1, x) :: map (fun y => (0, y)) s1 ++ (-1, x) :: map (fun y => (0, y)) s2).
      assert (Z : forall h, linear h l = 0).
      { intros h. unfold l. change ((1, x) :: ?t) with ([(1, x)] ++ t). rewrite !linear_app.
        change ((-1, x) :: ?t) with ([(-1, x)] ++ t). rewrite linear_app, !linear_zeros. unfold linear. cbn. ring. }
      assert (P : 0 < qsum f l).
      { apply Q; [|exists (1, x); split; [now left|cbn; lra]]. unfold l. cbn. rewrite map_app, map_map. cbn.
        rewrite map_map. cbn. now rewrite !map_id. }
      rewrite qsum_linear, Z in P. lra.
    - apply IH. intros l El (p & Hp & Np). specialize (Q ((0, x) :: l)).
      assert (E : qsum f ((0, x) :: l) = qsum f l).
      { rewrite !qsum_linear. change ((0, x) :: l) with (map (fun y => (0, y)) [x] ++ l). rewrite linear_app, linear_zeros, Rplus_0_l.
        unfold linear at 1 3. apply sum_map_ext. intros q _. rewrite linear_app, linear_zeros. ring. }
      rewrite <- E. apply Q; [cbn; now rewrite El|]. exists p. split; [now right|exact Np].
  Qed.

  (** A positive definite matrix determines the coefficients. *)
  Lemma dot_minus_map (c c' : vec) (k : mat) : length c = length c' -> map (dot (zipw Rminus c c')) k = zipw Rminus (map (dot c) k) (map (dot c') k).
  Proof.
    intros H. induction k as [|r k IH]; [reflexivity|]. cbn [map zipw]. now rewrite IH, dot_zipw_minus_l.
  Qed.
End Matrices.

Lemma zipw_minus_self (a : vec) : Forall (fun x => x = 0) (zipw Rminus a a).
Proof. induction a as [|x a IH]; cbn; constructor; [ring|exact IH]. Qed.
Lemma dot_zeros (c z : vec) : Forall (fun x => x = 0) z -> dot c z = 0.
Proof.
  revert c. induction z as [|x z IH]; intros [|a c] H; try reflexivity. rewrite dot_cons, IH by (exact (Forall_inv_tail H)).
  rewrite (Forall_inv H). ring.
Qed.
Lemma minus_zero_eq (a b : vec) : length a = length b -> Forall (fun x => x = 0) (zipw Rminus a b) -> a = b.
Proof.
  revert b. induction a as [|x a IH]; intros [|y b] H Z; try discriminate H; [reflexivity|]. cbn [zipw] in Z.
  pose proof (Forall_inv Z). pose proof (IH b ltac:(now injection H) (Forall_inv_tail Z)) as E. subst b.
  assert (x = y) by (cbn in *; lra). now subst.
Qed.
Lemma zipw_length_eq (a b : vec) : length a = length b -> length (zipw Rminus a b) = length a.
Proof. revert b. induction a as [|x a IH]; intros [|y b] H; try discriminate H; [reflexivity|]. cbn. now rewrite IH by (now injection H). Qed.

Theorem definite_unique k c c' targets : definite k -> reproduces k c targets -> reproduces k c' targets -> c = c'.
Proof.
  intros D (L & E) (L' & E'). apply minus_zero_eq; [congruence|].
  destruct (Forall_dec (fun x => x = 0) (fun x => Req_EM_T x 0) (zipw Rminus c c')) as [Z|N]; [exact Z|exfalso].
  apply neg_Forall_Exists_neg in N; [|intros x; destruct (Req_EM_T x 0); [now left|now right]].
  apply Exists_exists in N as (a & Ha & Na).
  pose proof (D (zipw Rminus c c') ltac:(rewrite zipw_length_eq; congruence) (ex_intro _ a (conj Ha Na))) as P.
  unfold quadratic in P. rewrite dot_minus_map in P by congruence. rewrite E, E', (dot_zeros _ (zipw Rminus targets targets)) in P; [lra|].
  apply zipw_minus_self.
Qed.

(** ** Solving the system *)

Section Solve.
  Context {X : Type}.
  Variable dom : X -> Prop.

  Lemma solve_pairs (s : list X) : forall f t, map snd t = s -> symmetric dom f -> psd_on dom f -> Forall dom s -> NoDup s ->
    (forall l, incl (map snd l) s -> NoDup (map snd l) -> qsum f l = 0 -> forall p, In p l -> fst p = 0) ->
    exists l, map snd l = s /\ forall p, In p t -> linear (f (snd p)) l = fst p.
  Proof.
    induction s as [|o s IH]; intros f t Et Sf Hf Hd ND H.
    { exists []. split; [reflexivity|]. destruct t; [|discriminate Et]. intros p []. }
    destruct t as [|[b o'] t]; [discriminate Et|]. cbn [map snd] in Et.
    assert (Eo : o' = o) by (now injection Et). assert (Es : map snd t = s) by (now injection Et). subst o'. clear Et.
    pose proof (Forall_inv Hd) as Ho. pose proof (Forall_inv_tail Hd) as Hr.
    destruct (proj1 (NoDup_cons_iff o s) ND) as [No NDt].
    assert (P : 0 < f o o).
    { destruct (psd_diagonal dom f o Hf Ho) as [P|Z]; [exact P|exfalso].
      assert (E : fst (1, o) = 0); [|cbn in E; lra]. apply (H [(1, o)]).
      - intros x [<-|[]]. now left.
      - cbn. constructor; [intros []|constructor].
      - unfold qsum. cbn. rewrite <- Z. ring.
      - now left. }
    set (t' := map (fun p => (fst p - f (snd p) o * b / f o o, snd p)) t).
    destruct (IH (residual f o) t') as (l & El & Hl).
    - unfold t'. now rewrite map_map.
    - now apply residual_sym.
    - now apply residual_psd.
    - exact Hr.
    - exact NDt.
    - intros l Hin NDl Z p Hp.
      assert (Hl : over_dom dom l).
      { apply Forall_forall. intros q Hq. apply (proj1 (Forall_forall _ _) Hr). apply Hin. now apply in_map. }
      rewrite (residual_qsum dom) in Z by assumption.
      apply (H _) with (p := p) in Z; [exact Z| | |now right].
      + cbn. intros x [<-|Hx]; [now left|right; now apply Hin].
      + cbn. constructor; [|exact NDl]. intros Hx. apply No. now apply Hin.
    - assert (Dl : over_dom dom l).
      { apply Forall_forall. intros q Hq. apply (proj1 (Forall_forall _ _) Hr). rewrite <- El. now apply in_map. }
      set (u := linear (fun y => f y o) l). exists (((b - u) / f o o, o) :: l). split; [cbn; now rewrite El|].
      assert (Cons : forall h, linear h (((b - u) / f o o, o) :: l) = (b - u) / f o o * h o + linear h l) by reflexivity.
      intros p [<-|Hp]; rewrite Cons.
      + cbn [fst snd]. rewrite (linear_ext dom (f o) (fun y => f y o) l Dl) by (intros; now apply Sf). fold u. field. lra.
      + assert (Dp : dom (snd p)) by (apply (proj1 (Forall_forall _ _) Hr); rewrite <- Es; now apply in_map).
        pose proof (Hl (fst p - f (snd p) o * b / f o o, snd p)) as E. cbn [fst snd] in E.
        specialize (E ltac:(unfold t'; exact (in_map (fun p => (fst p - f (snd p) o * b / f o o, snd p)) t p Hp))).
        rewrite (linear_ext dom (residual f o (snd p)) (fun y => f (snd p) y + - (f (snd p) o / f o o) * f y o) l Dl) in E
          by (intros; unfold residual; field; lra).
        rewrite linear_plus, linear_scale in E. fold u in E.
        replace (linear (f (snd p)) l) with (fst p - f (snd p) o * b / f o o + f (snd p) o / f o o * u) by lra.
        field. lra.
  Qed.

  Theorem definite_solve f s targets : symmetric dom f -> psd_on dom f -> Forall dom s -> NoDup s ->
    (forall l, incl (map snd l) s -> NoDup (map snd l) -> qsum f l = 0 -> forall p, In p l -> fst p = 0) ->
    length targets = length s -> exists c, reproduces (matrix_of f s) c targets.
  Proof.
    intros Sf Hf Hs ND H Ht.
    assert (E : map snd (combine targets s) = s).
    { clear - Ht. revert s Ht. induction targets as [|b c IH]; intros [|x s] Hc; try discriminate Hc; [reflexivity|]. cbn. now rewrite IH by (now injection Hc). }
    destruct (solve_pairs s f (combine targets s) E Sf Hf Hs ND H) as (l & El & Hl).
    exists (map fst l). split.
    - unfold matrix_of. rewrite !map_length, <- El. now rewrite map_length.
    - unfold matrix_of. rewrite map_map.
      assert (F : forall x, dot (map fst l) (map (f x) s) = linear (f x) l).
      { intros x. rewrite dot_combine by (now rewrite map_length, <- El, map_length). unfold linear. f_equal. f_equal.
        rewrite <- El. clear. induction l as [|[a y] l IH]; [reflexivity|]. cbn. now rewrite IH. }
      rewrite (map_ext _ _ F). clear - Hl Ht. revert s Hl Ht. induction targets as [|b c IH]; intros [|x s] Hl Hc; try discriminate Hc; [reflexivity|].
      cbn [map]. assert (E1 : linear (f x) l = b) by exact (Hl (b, x) (or_introl eq_refl)).
      assert (E2 : map (fun y => linear (f y) l) s = c).
      { apply IH; [|now injection Hc]. intros p Hp. apply Hl. now right. }
      now rewrite E1, E2.
  Qed.
End Solve.
