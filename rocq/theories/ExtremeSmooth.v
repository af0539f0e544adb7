(** Smoothing with very small and very large bandwidths: proofs. *)
From Coq Require Import Lra Lia.
From Verif Require Import Base Beautify RVec RVecProofs KernelR KernelRSpec KernelRProofs LipschitzSpec LipschitzProofs
  Method MethodSpec MethodProofs ExtremeSpec ExtremeProofs.
Open Scope R_scope.

Lemma sum_bound l B : Forall (fun a => Rabs a <= B) l -> Rabs (sum l) <= INR (length l) * B.
Proof.
  intros F. induction F as [|a l H F IH]; [cbn; rewrite Rabs_R0; lra|].
  rewrite sum_cons. cbn [length]. rewrite S_INR. eapply Rle_trans; [apply Rabs_triang|]. lra.
Qed.
Lemma sum_positive l : l <> [] -> Forall (fun a => 0 < a) l -> 0 < sum l.
Proof.
  intros N F. destruct F as [|a l H F]; [now elim N|]. rewrite sum_cons. clear N.
  assert (P : 0 <= sum l) by (apply sum_nonneg; eapply Forall_impl; [|exact F]; cbv beta; intros; lra). lra.
Qed.
Lemma sum_ge_one l i : Forall (fun a => 0 < a) l -> (i < length l)%nat -> nth i l 0 <= sum l.
Proof.
  intros F. revert i. induction F as [|a l H F IH]; intros [|i] Hi; cbn in Hi; try lia; rewrite sum_cons; cbn [nth].
  - assert (P : 0 <= sum l) by (apply sum_nonneg; eapply Forall_impl; [|exact F]; cbv beta; intros; lra). lra.
  - specialize (IH i ltac:(lia)). lra.
Qed.
Lemma weights_sum u : sum u <> 0 -> sum (weights u) = 1.
Proof.
  intros N. unfold weights. rewrite (map_ext _ (fun v => / sum u * v)) by (intros; unfold Rdiv; ring).
  rewrite sum_map_scal, map_id. now apply Rinv_l.
Qed.
Lemma dot_shift w o c : length w = length o -> dot w (map (fun v => v - c) o) = dot w o - sum w * c.
Proof.
  revert o. induction w as [|a w IH]; intros [|b o] L; cbn in L; try discriminate; cbn [map].
  - cbn. ring.
  - injection L as L. rewrite !dot_cons, sum_cons, IH by exact L. ring.
Qed.
Lemma sum_shift (o : vec) c : sum (map (fun v => v - c) o) = sum o - INR (length o) * c.
Proof. rewrite (sum_map_minus (fun v => v) (fun _ => c)), map_id, sum_map_const. reflexivity. Qed.
Lemma dot_flat (o : vec) p : dot (map (fun _ => p) o) o = p * sum o.
Proof. induction o as [|b o IH]; [cbn; ring|]. cbn [map]. rewrite dot_cons, sum_cons, IH. ring. Qed.

Lemma nth_mapR (f : R -> R) l j : (j < length l)%nat -> nth j (map f l) 0 = f (nth j l 0).
Proof. intros Hj. rewrite (nth_indep _ 0 (f 0)) by (now rewrite map_length). apply map_nth. Qed.

Lemma near_nearest u o i B : length u = length o -> Forall (fun a => 0 < a) u -> (i < length u)%nat ->
  (forall j, (j < length u)%nat -> Rabs (nth j o 0 - nth i o 0) * (nth j u 0 / nth i u 0) <= B) ->
  Rabs (dot (weights u) o - nth i o 0) <= INR (length u) * B.
Proof.
  intros L F Hi H.
  assert (Nu : u <> []) by (destruct u; [cbn in Hi; lia|discriminate]).
  pose proof (sum_positive u Nu F) as S.
  assert (Lw : length (weights u) = length o) by (unfold weights; now rewrite map_length).
  replace (dot (weights u) o - nth i o 0) with (dot (weights u) (map (fun v => v - nth i o 0) o))
    by (rewrite dot_shift, weights_sum by (assumption || lra); ring).
  unfold dot. eapply Rle_trans; [apply (sum_bound _ B)|].
  - apply zipw_forall; [now rewrite map_length|]. intros j Hj. unfold weights in *. rewrite map_length in Hj.
    specialize (H j Hj).
    rewrite (nth_mapR (fun v => v - nth i o 0)) by lia. rewrite (nth_mapR (fun v => v / sum u)) by exact Hj.
    assert (Pj : 0 < nth j u 0) by (apply (proj1 (Forall_forall _ _) F), nth_In; exact Hj).
    assert (Pi : 0 < nth i u 0) by (apply (proj1 (Forall_forall _ _) F), nth_In; exact Hi).
    eapply Rle_trans; [|exact H]. rewrite Rabs_mult, Rmult_comm. apply Rmult_le_compat_l; [apply Rabs_pos|].
    rewrite Rabs_right by (apply Rle_ge, Rlt_le, Rdiv_lt_0_compat; assumption).
    unfold Rdiv. apply Rmult_le_compat_l; [lra|]. apply Rinv_le_contravar; [exact Pi|]. now apply sum_ge_one.
  - rewrite zipw_length by (rewrite map_length; exact Lw). unfold weights. rewrite map_length. lra.
Qed.

Lemma near_mean u o p e M : length u = length o -> o <> [] -> 0 < p -> 0 <= e <= p / 2 ->
  Forall (fun a => Rabs (a - p) <= e) u -> 0 <= M -> Forall (fun v => Rabs (v - mean o) <= M) o ->
  0 < sum u /\ Rabs (dot (weights u) o - mean o) <= 2 * e * M / p.
Proof.
  intros L N Hp He F HM G.
  assert (Pn : 0 < INR (length o)) by (apply lt_0_INR; destruct o; [now elim N|cbn; lia]).
  assert (S : INR (length o) * (p / 2) <= sum u).
  { rewrite <- L. rewrite <- (sum_map_const (p / 2) u). rewrite <- (map_id u) at 2. apply sum_le_map. intros a Ha.
    pose proof (proj1 (Forall_forall _ _) F a Ha) as Q. cbv beta in Q. unfold Rabs in Q. destruct (Rcase_abs (a - p)); lra. }
  assert (Sp : 0 < sum u) by nra. split; [exact Sp|].
  assert (Lw : length (weights u) = length o) by (unfold weights; now rewrite map_length).
  set (z := map (fun v => v - mean o) o).
  assert (Lz : length u = length z) by (unfold z; now rewrite map_length).
  assert (E : dot (weights u) o - mean o = dot (zipw Rminus u (map (fun _ => p) z)) z / sum u).
  { replace (dot (weights u) o - mean o) with (dot (weights u) z)
      by (unfold z; rewrite dot_shift, weights_sum by (assumption || lra); ring).
    unfold weights. rewrite dot_div_l. f_equal. rewrite dot_zipw_minus_l by (now rewrite map_length).
    rewrite dot_flat. assert (Z0 : sum z = 0) by (unfold z; rewrite sum_shift, (mean_sum o N); ring). rewrite Z0. ring. }
  rewrite E. unfold Rdiv at 1. rewrite Rabs_mult, (Rabs_right (/ sum u)) by (apply Rle_ge, Rlt_le, Rinv_0_lt_compat; exact Sp).
  apply (Rmult_le_reg_r (sum u)); [exact Sp|]. rewrite Rmult_assoc, Rinv_l, Rmult_1_r by lra.
  apply Rle_trans with (INR (length o) * (e * M)).
  - unfold dot. eapply Rle_trans; [apply (sum_bound _ (e * M))|].
    + apply zipw_forall; [rewrite zipw_length; [exact Lz|now rewrite map_length]|]. intros j Hj.
      rewrite zipw_length in Hj by (now rewrite map_length).
      rewrite (zipw_nth Rminus u (map (fun _ => p) z) j 0 0 0) by (try rewrite map_length; lia).
      rewrite (nth_mapR (fun _ => p)) by lia.
      rewrite Rabs_mult. apply Rmult_le_compat; [apply Rabs_pos|apply Rabs_pos| |].
      * apply (proj1 (Forall_forall _ _) F). now apply nth_In.
      * unfold z. rewrite (nth_mapR (fun v => v - mean o)) by lia. apply (proj1 (Forall_forall _ _) G). apply nth_In. lia.
    + rewrite !zipw_length by (rewrite ?zipw_length; rewrite ?map_length; auto). rewrite L. lra.
  - assert (Q : 2 * e * M / p * (INR (length o) * (p / 2)) <= 2 * e * M / p * sum u).
    { apply Rmult_le_compat_l; [|exact S]. unfold Rdiv. apply Rmult_le_pos; [|apply Rlt_le, Rinv_0_lt_compat; exact Hp].
      apply Rmult_le_pos; [lra|exact HM]. }
    replace (2 * e * M / p * (INR (length o) * (p / 2))) with (INR (length o) * (e * M)) in Q by (field; lra). exact Q.
Qed.

(** The smoother on one row, with all observations. *)
Lemma smoother_one topk n u obs q : rect q obs -> length u = n -> length obs = n -> (1 <= n)%nat -> sum u <> 0 ->
  smoother topk n [u] obs None = Ok [Some (map (fun c => dot (weights u) (column c obs)) (seq 0 q))].
Proof.
  intros Hq Lu Lo Hn Hs. unfold smoother. rewrite Lo, Nat.eqb_refl. cbn [negb].
  destruct (Z.leb_spec (Z.of_nat n) 0) as [K|K]; [lia|]. destruct (Z.ltb_spec (Z.of_nat n) (Z.of_nat n)) as [K'|K']; [lia|].
  cbn [map]. rewrite Nat2Z.id. unfold kept_coeff. rewrite Nat.eqb_refl. unfold smoother_row.
  destruct (Req_EM_T (sum u) 0) as [Z0|_]; [contradiction|].
  rewrite (rect_width q obs Hq) by (intros ->; cbn in Lo; lia). reflexivity.
Qed.
Lemma nth_seq_map (f : nat -> R) q c : (c < q)%nat -> nth c (map f (seq 0 q)) 0 = f c.
Proof.
  intros Hc. rewrite (nth_indep _ 0 (f 0%nat)) by (now rewrite map_length, seq_length). rewrite map_nth. now rewrite seq_nth.
Qed.
Lemma column_nth c obs j : nth j (column c obs) 0 = nth c (nth j obs []) 0.
Proof.
  unfold column. replace 0 with (nth c (@nil R) 0) at 1 by (destruct c; reflexivity). apply (map_nth (fun r => nth c r 0)).
Qed.

(** ** Exponential kernels *)
Lemma exponential_value b d sigma x y : offered d -> 0 < sigma ->
  shape (Exponential b) (dval d x y / sigma) = exp (- exponent b sigma (dval d x y)).
Proof.
  intros Hd Hs. destruct b; cbn [shape exponent]; f_equal.
  - field. lra.
  - assert (E : sqrt (1 / 2) = / sqrt 2) by (rewrite sqrt_div_alt by lra; rewrite sqrt_1; unfold Rdiv; ring).
    assert (P : 0 < sqrt 2) by (apply sqrt_lt_R0; lra). rewrite E. field. split; lra.
Qed.
Lemma gap b sigma r r' : 0 < sigma <= 1 -> 0 <= r < r' ->
  exists g, 0 < g /\ forall t, 0 < t <= 1 -> exp (- (exponent b t r' - exponent b t r)) <= t / g.
Proof.
  intros Hs Hr.
  assert (K : forall z, 0 < z -> exp (- z) <= / z).
  { intros z Hz. pose proof (x_exp_neg z) as X. apply (Rmult_le_reg_l z); [exact Hz|]. rewrite Rinv_r by lra. exact X. }
  destruct b.
  - exists ((r' ^ 2 - r ^ 2) / 2). split; [nra|]. intros t Ht.
    assert (G : 0 < (r' ^ 2 - r ^ 2) / 2) by nra.
    set (g := (r' ^ 2 - r ^ 2) / 2) in *.
    replace (exponent true t r' - exponent true t r) with (g / (t * t)) by (unfold g, exponent; field; lra).
    eapply Rle_trans; [apply K, Rdiv_lt_0_compat; nra|].
    replace (/ (g / (t * t))) with (t * t / g) by (field; lra).
    unfold Rdiv. apply Rmult_le_compat_r; [apply Rlt_le, Rinv_0_lt_compat; exact G|nra].
  - assert (P : 0 < sqrt 2) by (apply sqrt_lt_R0; lra).
    exists ((r' - r) / sqrt 2). split; [apply Rdiv_lt_0_compat; lra|]. intros t Ht.
    replace (exponent false t r' - exponent false t r) with ((r' - r) / (sqrt 2 * t)) by (unfold exponent; field; lra).
    eapply Rle_trans; [apply K, Rdiv_lt_0_compat; nra|]. right. field. lra.
Qed.

Lemma values_length (k : kern) d sigma x (s : mat) : length (map (fun y => shape k (dval d x y / sigma)) s) = length s.
Proof. apply map_length. Qed.
Lemma values_nth (k : kern) d sigma x (s : mat) j : (j < length s)%nat ->
  nth j (map (fun y => shape k (dval d x y / sigma)) s) 0 = shape k (dval d x (nth j s []) / sigma).
Proof.
  intros Hj. rewrite (nth_indep _ 0 (shape k (dval d x [] / sigma))) by (now rewrite map_length).
  apply (map_nth (fun y => shape k (dval d x y / sigma))).
Qed.

Theorem smoothing_nearest topk b d x (s obs : mat) q i : offered d -> length obs = length s -> rect q obs ->
  (i < length s)%nat ->
  (forall j, (j < length s)%nat -> j <> i ->
     exists ri rj, dist d x (nth i s []) = Ok ri /\ dist d x (nth j s []) = Ok rj /\ ri < rj) ->
  forall eps, 0 < eps -> exists sigma0, 0 < sigma0 /\ forall sigma, 0 < sigma <= sigma0 ->
    exists u out, Forall2 (fun y v => kvalue (Exponential b) d sigma x y = Ok (Fin v)) s u /\
      smoother topk (length s) [u] obs None = Ok [Some out] /\ length out = q /\
      forall c, (c < q)%nat -> Rabs (nth c out 0 - nth c (nth i obs []) 0) <= eps.
Proof.
  intros Hd Lo Hq Hi Hn eps He. set (n := length s) in *.
  assert (Pn : 0 < INR n) by (apply lt_0_INR; lia).
  destruct (for_all_small (fun t jc =>
      Rabs (nth (snd jc) (nth (fst jc) obs []) 0 - nth (snd jc) (nth i obs []) 0) *
      exp (- (exponent b t (dval d x (nth (fst jc) s [])) - exponent b t (dval d x (nth i s [])))) <= eps / INR n)
    (list_prod (seq 0 n) (seq 0 q))) as (s0 & P0 & Q0).
  - intros (j, c) Hjc. apply in_prod_iff in Hjc. destruct Hjc as (Hj & Hc). apply in_seq in Hj. cbn [fst snd].
    assert (Pe : 0 < eps / INR n) by (apply Rdiv_lt_0_compat; assumption).
    destruct (Nat.eq_dec j i) as [->|Nj].
    + exists 1. split; [lra|]. intros t _. rewrite Rminus_eq_0, Rabs_R0, Rmult_0_l. lra.
    + destruct (Hn j ltac:(lia) Nj) as (ri & rj & E1 & E2 & Lt).
      rewrite dist_dval in E1, E2 by exact Hd. injection E1 as E1. injection E2 as E2. rewrite E1, E2.
      assert (R0 : 0 <= ri) by (rewrite <- E1; apply dval_nonneg).
      destruct (gap b 1 ri rj ltac:(lra) ltac:(lra)) as (g & Pg & Qg).
      set (A := Rabs _). assert (PA : 0 <= A) by apply Rabs_pos.
      exists (Rmin 1 (eps / INR n * g / (A + 1))).
      split; [apply Rmin_pos; [lra|]; apply Rdiv_lt_0_compat; [now apply Rmult_lt_0_compat|lra]|].
      intros t [T1 T2]. pose proof (Rmin_l 1 (eps / INR n * g / (A + 1))) as M1. pose proof (Rmin_r 1 (eps / INR n * g / (A + 1))) as M2.
      eapply Rle_trans; [apply Rmult_le_compat_l; [exact PA|apply Qg; lra]|].
      apply (Rmult_le_reg_r g); [exact Pg|]. unfold Rdiv at 1. rewrite !Rmult_assoc, Rinv_l, Rmult_1_r by lra.
      assert (T3 : t * (A + 1) <= eps / INR n * g).
      { apply (Rmult_le_reg_r (/ (A + 1))); [apply Rinv_0_lt_compat; lra|]. rewrite Rmult_assoc, Rinv_r by lra. unfold Rdiv in *. lra. }
      nra.
  - exists s0. split; [exact P0|]. intros sigma Hs. set (u := map (fun y => shape (Exponential b) (dval d x y / sigma)) s).
    assert (Lu : length u = n) by (unfold u; now rewrite values_length).
    assert (Fu : Forall (fun a => 0 < a) u).
    { unfold u. apply Forall_map, Forall_forall. intros y _. rewrite exponential_value by (assumption || lra). apply exp_pos. }
    assert (Nu : u <> []) by (intros E; rewrite E in Lu; cbn in Lu; lia).
    pose proof (sum_positive u Nu Fu) as Su.
    exists u, (map (fun c => dot (weights u) (column c obs)) (seq 0 q)).
    split; [unfold u; apply values_of; [exact Hd|lra]|].
    split; [apply smoother_one; auto; [lia|lra]|]. split; [now rewrite map_length, seq_length|].
    intros c Hc. rewrite (nth_seq_map (fun c => dot (weights u) (column c obs)) q c Hc), <- (column_nth c obs i).
    eapply Rle_trans; [apply (near_nearest u (column c obs) i (eps / INR n))|].
    + now rewrite column_length, Lu, Lo.
    + exact Fu.
    + lia.
    + rewrite Lu. intros j Hj. rewrite !column_nth. unfold u. rewrite !values_nth by assumption.
      rewrite !exponential_value by (assumption || lra).
      replace (exp (- exponent b sigma (dval d x (nth j s []))) / exp (- exponent b sigma (dval d x (nth i s []))))
        with (exp (- (exponent b sigma (dval d x (nth j s [])) - exponent b sigma (dval d x (nth i s []))))).
      * apply (Q0 sigma Hs (j, c)). apply in_prod; apply in_seq; lia.
      * unfold Rdiv. rewrite <- exp_Ropp, <- exp_plus. f_equal. ring.
    + rewrite Lu. right. field. lra.
Qed.

Theorem smoothing_mean topk k d x (s obs : mat) q : offered d -> s <> [] -> length obs = length s -> rect q obs ->
  forall eps, 0 < eps -> exists sigma0, 0 < sigma0 /\ forall sigma, sigma0 <= sigma ->
    exists u out, Forall2 (fun y v => kvalue k d sigma x y = Ok (Fin v)) s u /\
      smoother topk (length s) [u] obs None = Ok [Some out] /\ length out = q /\
      forall c, (c < q)%nat -> Rabs (nth c out 0 - mean (column c obs)) <= eps.
Proof.
  intros Hd Ns Lo Hq eps He.
  assert (Hp : 0 < peak k) by (destruct k; cbn; try lra; pose proof sqrt_half_ge; lra).
  assert (BM : exists M, 0 < M /\ forall c, (c < q)%nat -> Forall (fun v => Rabs (v - mean (column c obs)) <= M) (column c obs)).
  { clear -Hq. induction q as [|q' IH] in Hq |- *; [exists 1; split; [lra|lia]|].
    assert (G : forall k0, exists M, 0 < M /\ forall c, (c < k0)%nat -> Forall (fun v => Rabs (v - mean (column c obs)) <= M) (column c obs)).
    { induction k0 as [|k0 (M & PM & QM)]; [exists 1; split; [lra|lia]|].
      assert (U : forall (l : vec) m, exists B, 0 < B /\ Forall (fun v => Rabs (v - m) <= B) l).
      { induction l as [|a l IHl]; intros m; [exists 1; split; [lra|constructor]|].
        destruct (IHl m) as (B & PB & FB). exists (Rabs (a - m) + B). pose proof (Rabs_pos (a - m)). split; [lra|].
        constructor; [lra|]. eapply Forall_impl; [|exact FB]. cbv beta. intros; lra. }
      destruct (U (column k0 obs) (mean (column k0 obs))) as (B & PB & FB).
      exists (M + B). split; [lra|]. intros c Hc. destruct (Nat.eq_dec c k0) as [->|Nc].
      - eapply Forall_impl; [|exact FB]. cbv beta. intros; lra.
      - eapply Forall_impl; [|apply QM; lia]. cbv beta. intros; lra. }
    exact (G (S q')). }
  destruct BM as (M & PM & QM).
  set (e := Rmin (peak k / 2) (eps * peak k / (2 * M))).
  assert (Pe : 0 < e) by (apply Rmin_pos; [lra|]; apply Rdiv_lt_0_compat; [now apply Rmult_lt_0_compat|lra]).
  pose proof (Rmin_l (peak k / 2) (eps * peak k / (2 * M))) as E1. pose proof (Rmin_r (peak k / 2) (eps * peak k / (2 * M))) as E2.
  fold e in E1, E2.
  destruct (matrix_large k d (x :: s) e Hd Pe) as (s0 & P0 & Q0). exists s0. split; [exact P0|]. intros sigma Hs.
  set (u := map (fun y => shape k (dval d x y / sigma)) s).
  assert (Lu : length u = length s) by (unfold u; now rewrite values_length).
  assert (Fu : Forall (fun a => Rabs (a - peak k) <= e) u).
  { unfold u. apply Forall_map, Forall_forall. intros y Hy.
    destruct (Q0 sigma Hs x y (or_introl eq_refl) (or_intror Hy)) as (v & V & B).
    rewrite kvalue_shape in V by (assumption || lra). injection V as <-. exact B. }
  assert (No : obs <> []) by (intros E; rewrite E in Lo; destruct s; [now elim Ns|discriminate]).
  assert (NC : forall c, column c obs <> []) by (intros c; unfold column; destruct obs; [now elim No|discriminate]).
  assert (Z : 0 < sum u).
  { destruct (near_mean u (map (fun _ => 0) u) (peak k) e 0) as (Z & _); auto; [now rewrite map_length| |lra|lra|].
    - intros E. apply map_eq_nil in E. rewrite E in Lu. destruct s; [now elim Ns|discriminate].
    - apply Forall_map, Forall_forall. intros y _. unfold mean. rewrite sum_map_const. rewrite Rmult_0_r.
      unfold Rdiv. rewrite Rmult_0_l, Rminus_eq_0, Rabs_R0. lra. }
  exists u, (map (fun c => dot (weights u) (column c obs)) (seq 0 q)).
  split; [unfold u; apply values_of; [exact Hd|lra]|].
  split; [apply smoother_one; auto; [destruct s; [now elim Ns|cbn; lia]|lra]|].
  split; [now rewrite map_length, seq_length|].
  intros c Hc. rewrite (nth_seq_map (fun c => dot (weights u) (column c obs)) q c Hc).
  destruct (near_mean u (column c obs) (peak k) e M) as (_ & B); auto; [now rewrite column_length, Lo|lra|lra|].
  eapply Rle_trans; [exact B|].
  apply (Rmult_le_reg_r (peak k)); [exact Hp|]. unfold Rdiv. rewrite Rmult_assoc, Rinv_l, Rmult_1_r by lra.
  assert (E3 : e * (2 * M) <= eps * peak k).
  { apply (Rmult_le_reg_r (/ (2 * M))); [apply Rinv_0_lt_compat; lra|]. rewrite Rmult_assoc, Rinv_r by lra. unfold Rdiv in E2. lra. }
  lra.
Qed.
