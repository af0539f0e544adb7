(** Smoothing with very small bandwidths when several samples are nearest: proofs. *)
From Coq Require Import Lra Lia.
From Verif Require Import Base Beautify RVec RVecProofs KernelR KernelRSpec KernelRProofs LipschitzSpec LipschitzProofs
  Method MethodSpec MethodProofs ExtremeSpec ExtremeProofs ExtremeSmooth.
Open Scope R_scope.

Lemma dot_seq (a b : vec) : length a = length b ->
  dot a b = sum (map (fun j => nth j a 0 * nth j b 0) (seq 0 (length a))).
Proof.
  revert b. induction a as [|x a IH]; intros [|y b] L; cbn in L; try discriminate; [reflexivity|].
  injection L as L. rewrite dot_cons, (IH b L). cbn [length seq map]. rewrite sum_cons. cbn [nth]. f_equal.
  rewrite <- seq_shift, map_map. reflexivity.
Qed.
Lemma sum_split {A} (t : A -> bool) (f : A -> R) l :
  sum (map f l) = sum (map f (filter t l)) + sum (map f (filter (fun j => negb (t j)) l)).
Proof.
  induction l as [|a l IH]; [cbn; ring|]. cbn [map filter]. destruct (t a); cbn [negb map]; rewrite !sum_cons, IH; ring.
Qed.
Lemma filter_length_le' {A} (t : A -> bool) l : (length (filter t l) <= length l)%nat.
Proof. induction l as [|a l IH]; cbn; [lia|]. destruct (t a); cbn; lia. Qed.

Lemma near_tied u o (tied : nat -> bool) i B : length u = length o -> Forall (fun a => 0 < a) u -> (i < length u)%nat ->
  tied i = true -> (forall j, (j < length u)%nat -> tied j = true -> nth j u 0 = nth i u 0) -> 0 <= B ->
  let m := mean (map (fun j => nth j o 0) (filter tied (seq 0 (length u)))) in
  (forall j, (j < length u)%nat -> tied j = false -> Rabs (nth j o 0 - m) * (nth j u 0 / nth i u 0) <= B) ->
  Rabs (dot (weights u) o - m) <= INR (length u) * B.
Proof.
  intros L F Hi Ti Ht HB m H.
  assert (Nu : u <> []) by (destruct u; [cbn in Hi; lia|discriminate]).
  pose proof (sum_positive u Nu F) as S.
  assert (Lw : length (weights u) = length u) by (unfold weights; now rewrite map_length).
  replace (dot (weights u) o - m) with (dot (weights u) (map (fun v => v - m) o))
    by (rewrite dot_shift, weights_sum by (lia || lra); ring).
  rewrite dot_seq by (rewrite map_length; lia). rewrite Lw.
  rewrite (map_ext_in _ (fun j => nth j u 0 / sum u * (nth j o 0 - m))).
  2:{ intros j Hj. apply in_seq in Hj. unfold weights. rewrite (nth_mapR (fun v => v / sum u)) by lia.
      now rewrite (nth_mapR (fun v => v - m)) by lia. }
  rewrite (sum_split tied).
  assert (T0 : sum (map (fun j => nth j u 0 / sum u * (nth j o 0 - m)) (filter tied (seq 0 (length u)))) = 0).
  { rewrite (map_ext_in _ (fun j => nth i u 0 / sum u * (nth j o 0 - m))).
    2:{ intros j Hj. apply filter_In in Hj. destruct Hj as (Hj & Tj). apply in_seq in Hj. rewrite (Ht j); [reflexivity|lia|exact Tj]. }
    rewrite sum_map_scal, (sum_map_minus (fun j => nth j o 0) (fun _ => m)), sum_map_const.
    assert (N : map (fun j => nth j o 0) (filter tied (seq 0 (length u))) <> []).
    { intros E. apply map_eq_nil in E. assert (In i (filter tied (seq 0 (length u)))) as I0 by (apply filter_In; split; [apply in_seq; lia|exact Ti]).
      rewrite E in I0. destruct I0. }
    rewrite <- (mean_sum _ N). fold m. rewrite map_length. ring. }
  rewrite T0, Rplus_0_l. eapply Rle_trans; [apply (sum_bound _ B)|].
  - apply Forall_map, Forall_forall. intros j Hj. apply filter_In in Hj. destruct Hj as (Hj & Tj). apply in_seq in Hj.
    apply Bool.negb_true_iff in Tj. specialize (H j ltac:(lia) Tj).
    assert (Pj : 0 < nth j u 0) by (apply (proj1 (Forall_forall _ _) F), nth_In; lia).
    assert (Pi : 0 < nth i u 0) by (apply (proj1 (Forall_forall _ _) F), nth_In; exact Hi).
    eapply Rle_trans; [|exact H]. rewrite Rabs_mult, Rmult_comm. apply Rmult_le_compat_l; [apply Rabs_pos|].
    rewrite Rabs_right by (apply Rle_ge, Rlt_le, Rdiv_lt_0_compat; assumption).
    unfold Rdiv. apply Rmult_le_compat_l; [lra|]. apply Rinv_le_contravar; [exact Pi|]. now apply sum_ge_one.
  - rewrite map_length. apply Rmult_le_compat_r; [exact HB|]. apply le_INR.
    eapply Nat.le_trans; [apply filter_length_le'|]. now rewrite seq_length.
Qed.

Lemma argmin (f : nat -> R) n : (0 < n)%nat -> exists i, (i < n)%nat /\ forall l, (l < n)%nat -> f i <= f l.
Proof.
  induction n as [|n IH]; [lia|]. intros _. destruct n as [|n].
  - exists 0%nat. split; [lia|]. intros l Hl. replace l with 0%nat by lia. lra.
  - destruct (IH ltac:(lia)) as (i & Hi & Mi). destruct (Rle_dec (f i) (f (S n))) as [D|D].
    + exists i. split; [lia|]. intros l Hl. destruct (Nat.eq_dec l (S n)) as [->|]; [exact D|]. apply Mi. lia.
    + exists (S n). split; [lia|]. intros l Hl. destruct (Nat.eq_dec l (S n)) as [->|]; [lra|]. specialize (Mi l ltac:(lia)). lra.
Qed.

Theorem smoothing_ties topk b d x (s obs : mat) q (nearest : nat -> bool) : offered d -> s <> [] ->
  length obs = length s -> rect q obs ->
  (forall j, (j < length s)%nat -> (nearest j = true <-> forall l, (l < length s)%nat ->
     exists rj rl, dist d x (nth j s []) = Ok rj /\ dist d x (nth l s []) = Ok rl /\ rj <= rl)) ->
  forall eps, 0 < eps -> exists sigma0, 0 < sigma0 /\ forall sigma, 0 < sigma <= sigma0 ->
    exists u out, Forall2 (fun y v => kvalue (Exponential b) d sigma x y = Ok (Fin v)) s u /\
      smoother topk (length s) [u] obs None = Ok [Some out] /\ length out = q /\
      forall c, (c < q)%nat ->
        Rabs (nth c out 0 - mean (map (fun j => nth c (nth j obs []) 0) (filter nearest (seq 0 (length s))))) <= eps.
Proof.
  intros Hd Ns Lo Hq Hn eps He. set (n := length s) in *.
  assert (Hn0 : (0 < n)%nat) by (unfold n; destruct s; [now elim Ns|cbn; lia]).
  assert (Pn : 0 < INR n) by (apply lt_0_INR; lia).
  destruct (argmin (fun j => dval d x (nth j s [])) n Hn0) as (i & Hi & Mi).
  assert (Ti : nearest i = true).
  { apply Hn; [exact Hi|]. intros l Hl. rewrite !dist_dval by exact Hd. do 2 eexists. do 2 (split; [reflexivity|]). now apply Mi. }
  assert (Tt : forall j, (j < n)%nat -> nearest j = true -> dval d x (nth j s []) = dval d x (nth i s [])).
  { intros j Hj Tj. destruct (proj1 (Hn j Hj) Tj i Hi) as (rj & ri & E1 & E2 & Le). rewrite dist_dval in E1, E2 by exact Hd.
    injection E1 as <-. injection E2 as <-. specialize (Mi j Hj). cbv beta in Mi. lra. }
  assert (Tf : forall j, (j < n)%nat -> nearest j = false -> dval d x (nth i s []) < dval d x (nth j s [])).
  { intros j Hj Tj. destruct (Rlt_dec (dval d x (nth i s [])) (dval d x (nth j s []))) as [D|D]; [exact D|]. exfalso.
    assert (nearest j = true) as C; [|congruence]. apply Hn; [exact Hj|]. intros l Hl. rewrite !dist_dval by exact Hd.
    do 2 eexists. do 2 (split; [reflexivity|]). specialize (Mi l Hl). cbv beta in Mi. lra. }
  set (m := fun c => mean (map (fun j => nth c (nth j obs []) 0) (filter nearest (seq 0 n)))).
  assert (Pe : 0 < eps / INR n) by (apply Rdiv_lt_0_compat; assumption).
  destruct (for_all_small (fun t jc => nearest (fst jc) = false ->
      Rabs (nth (snd jc) (nth (fst jc) obs []) 0 - m (snd jc)) *
      exp (- (exponent b t (dval d x (nth (fst jc) s [])) - exponent b t (dval d x (nth i s [])))) <= eps / INR n)
    (list_prod (seq 0 n) (seq 0 q))) as (s0 & P0 & Q0).
  - intros (j, c) Hjc. apply in_prod_iff in Hjc. destruct Hjc as (Hj & Hc). apply in_seq in Hj. cbn [fst snd].
    destruct (nearest j) eqn:Tj; [exists 1; split; [lra|intros t _ C; discriminate C]|].
    pose proof (Tf j ltac:(lia) Tj) as Lt. pose proof (dval_nonneg d x (nth i s [])) as R0.
    destruct (gap b 1 _ _ ltac:(lra) (conj R0 Lt)) as (g & Pg & Qg).
    set (A := Rabs _). assert (PA : 0 <= A) by apply Rabs_pos.
    exists (Rmin 1 (eps / INR n * g / (A + 1))).
    split; [apply Rmin_pos; [lra|]; apply Rdiv_lt_0_compat; [now apply Rmult_lt_0_compat|lra]|].
    intros t [T1 T2] _. pose proof (Rmin_l 1 (eps / INR n * g / (A + 1))) as M1. pose proof (Rmin_r 1 (eps / INR n * g / (A + 1))) as M2.
    eapply Rle_trans; [apply Rmult_le_compat_l; [exact PA|apply Qg; lra]|].
    apply (Rmult_le_reg_r g); [exact Pg|]. unfold Rdiv at 1. rewrite !Rmult_assoc, Rinv_l, Rmult_1_r by lra.
    assert (T3 : t * (A + 1) <= eps / INR n * g).
    { apply (Rmult_le_reg_r (/ (A + 1))); [apply Rinv_0_lt_compat; lra|]. rewrite Rmult_assoc, Rinv_r by lra. unfold Rdiv in *. lra. }
    nra.
  - exists s0. split; [exact P0|]. intros sigma Hs. set (u := map (fun y => shape (Exponential b) (dval d x y / sigma)) s).
    assert (Lu : length u = n) by (unfold u; now rewrite values_length).
    assert (Fu : Forall (fun a => 0 < a) u).
    { unfold u. apply Forall_map, Forall_forall. intros y _. rewrite exponential_value by (assumption || lra). apply exp_pos. }
    assert (Nu : u <> []) by (intros E; rewrite E in Lu; cbn in Lu; lia).
    pose proof (sum_positive u Nu Fu) as Su.
    exists u, (map (fun c => dot (weights u) (column c obs)) (seq 0 q)).
    split; [unfold u; apply values_of; [exact Hd|lra]|].
    split; [apply smoother_one; auto; lra|]. split; [now rewrite map_length, seq_length|].
    intros c Hc. rewrite (nth_seq_map (fun c => dot (weights u) (column c obs)) q c Hc). fold (m c).
    assert (Em : mean (map (fun j => nth j (column c obs) 0) (filter nearest (seq 0 (length u)))) = m c).
    { unfold m. rewrite Lu. f_equal. apply map_ext. intros j. apply column_nth. }
    rewrite <- Em.
    eapply Rle_trans; [apply (near_tied u (column c obs) nearest i (eps / INR n))|].
    + now rewrite column_length, Lu, Lo.
    + exact Fu.
    + lia.
    + exact Ti.
    + rewrite Lu. intros j Hj Tj. unfold u. rewrite !values_nth by assumption. now rewrite (Tt j Hj Tj).
    + lra.
    + rewrite Em, Lu. intros j Hj Tj. rewrite column_nth. unfold u. rewrite !values_nth by assumption.
      rewrite !exponential_value by (assumption || lra).
      replace (exp (- exponent b sigma (dval d x (nth j s []))) / exp (- exponent b sigma (dval d x (nth i s []))))
        with (exp (- (exponent b sigma (dval d x (nth j s [])) - exponent b sigma (dval d x (nth i s []))))).
      * apply (Q0 sigma Hs (j, c)); [apply in_prod; apply in_seq; lia|exact Tj].
      * unfold Rdiv. rewrite <- exp_Ropp, <- exp_plus. f_equal. ring.
    + rewrite Lu. right. field. lra.
Qed.
