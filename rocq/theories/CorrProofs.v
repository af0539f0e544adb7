(** Covariance and correlation: proofs. *)
From Verif Require Import Base Cache CacheSpec Beautify BeautifySpec BeautifyProofs TransformTree TransformSpec TransformProofs
  RVec RVecProofs TransformR TransformRSpec TransformRProofs TransformRTree Corr CorrSpec.
Open Scope R_scope.

(** * Second moments *)

Lemma transpose_nth m i : (i < width m)%nat -> nth i (transpose m) [] = column i m.
Proof.
  intros H. unfold transpose. rewrite (nth_indep _ [] (column 0 m)) by (now rewrite map_length, seq_length).
  rewrite (map_nth (fun j => column j m)), seq_nth by exact H. reflexivity.
Qed.
Lemma transpose_len m : length (transpose m) = width m.
Proof. unfold transpose. now rewrite map_length, seq_length. Qed.
Lemma second_moment_entry phi i j : (i < width phi)%nat -> (j < width phi)%nat ->
  entry (second_moment phi) i j = 1 / INR (length phi) * dot (column i phi) (column j phi).
Proof.
  intros Hi Hj. unfold entry, second_moment. set (f := fun v => 1 / INR (length phi) * v).
  assert (Z : f 0 = 0) by (unfold f; ring).
  rewrite (nth_indep _ [] (map f [])) by (now rewrite map_length, gram_length, transpose_len).
  rewrite (map_nth (map f)).
  rewrite <- Z at 1. rewrite (map_nth f).
  unfold f. f_equal.
  rewrite gram_nth by (now rewrite transpose_len). now rewrite !transpose_nth.
Qed.
Lemma second_moment_shape phi d : phi <> [] -> rect d phi -> length (second_moment phi) = d /\ rect d (second_moment phi).
Proof.
  intros N R. pose proof (rect_width d phi R N) as W. unfold second_moment. split.
  - now rewrite map_length, gram_length, transpose_len.
  - apply Forall_map. unfold gram. apply Forall_map. apply Forall_forall. intros r _. now rewrite !map_length, transpose_len.
Qed.
Lemma real_c_value phi : phi <> [] -> real_c (VMat phi) = Ok (VMat (second_moment phi)).
Proof. destruct phi; [contradiction|reflexivity]. Qed.

Lemma dot_map_scale q c r : dot c (map (fun v => q * v) r) = q * dot c r.
Proof.
  revert c. induction r as [|a r IH]; intros [|b c]; try (unfold dot; cbn [map zipw]; unfold sum; cbn; ring).
  unfold dot in *. cbn [map zipw]. rewrite !sum_cons, IH. ring.
Qed.
Lemma quad_scale q m c : quad (map (map (fun v => q * v)) m) c = q * quad m c.
Proof.
  unfold quad. rewrite map_map, <- dot_map_scale. f_equal. rewrite map_map. apply map_ext. intros r. apply dot_map_scale.
Qed.
Lemma second_moment_psd phi c : phi <> [] -> 0 <= quad (second_moment phi) c.
Proof.
  intros N. unfold second_moment. rewrite quad_scale. pose proof (INR_length_pos phi N) as P.
  apply Rmult_le_pos; [apply Rlt_le, Rdiv_lt_0_compat; lra|].
  apply (gram_psd (length phi)). apply Forall_map, Forall_forall. intros j _. apply column_length.
Qed.

Lemma diag_nth m i : (i < length m)%nat -> nth i (diag m) 0 = entry m i i.
Proof.
  intros H. unfold diag, entry. rewrite (nth_indep _ 0 (nth 0 (nth 0 m []) 0)) by (now rewrite map_length, seq_length).
  rewrite (map_nth (fun i => nth i (nth i m []) 0)), seq_nth by exact H. reflexivity.
Qed.
Lemma diag_length m : length (diag m) = length m.
Proof. unfold diag. now rewrite map_length, seq_length. Qed.

(** * The list of transforms *)

Lemma recognised_classes l : Forall recognised (map RCls l).
Proof. apply Forall_map. apply Forall_forall. intros c _. exact I. Qed.
Lemma meaning_classes l : flat_map meaning (map RCls l) = l.
Proof. induction l as [|c l IH]; [reflexivity|]. cbn. now rewrite IH. Qed.
Lemma beautify_classes l : no_repeat l -> beautify (map RCls l) = Ok l.
Proof.
  intros H. unfold beautify. rewrite expand_requests_ok by apply recognised_classes. cbn [bind].
  now rewrite meaning_classes, dedup_no_repeat.
Qed.
Lemma no_repeat_snoc l a : no_repeat l -> (forall l', l <> l' ++ [a]) -> no_repeat (l ++ [a]).
Proof.
  induction l as [|b l IH]; [cbn; auto|]. intros (H1 & H2) N. cbn [app]. split.
  - destruct l as [|c l]; [|exact H1]. cbn. intros ->. now apply (N []).
  - apply IH; [exact H2|]. intros l' ->. now apply (N (b :: l')).
Qed.
Theorem cov_list_plain default : no_repeat default ->
  exists l, cov_list plain_class default = Ok (l ++ [MeanCenter])%list /\ no_repeat (l ++ [MeanCenter]) /\
    (default = l \/ default = l ++ [MeanCenter])%list.
Proof.
  intros H.
  assert (G : exists l, dedup (default ++ [MeanCenter]) = (l ++ [MeanCenter])%list /\ no_repeat (l ++ [MeanCenter]) /\
    (default = l \/ default = l ++ [MeanCenter])%list).
  { destruct (rev default) as [|c r] eqn:E.
    - exists []. apply (f_equal (@rev cls)) in E. rewrite rev_involutive in E. subst default. cbn. auto.
    - apply (f_equal (@rev cls)) in E. rewrite rev_involutive in E. cbn [rev] in E.
      destruct (cls_eqb c MeanCenter) eqn:B.
      + apply cls_eqb_eq in B. subst c. exists (rev r). subst default. split; [|auto].
        rewrite <- app_assoc. cbn [app]. apply dedup_one_repeat; [exact H|discriminate].
      + exists default. apply cls_eqb_neq in B.
        assert (S : no_repeat (default ++ [MeanCenter])).
        { apply no_repeat_snoc; [exact H|]. intros l' ->. apply app_inj_tail in E. destruct E as (_ & E). congruence. }
        split; [now apply dedup_no_repeat|auto]. }
  destruct G as (l & E & S & D). exists l. split; [|auto].
  unfold cov_list, plain_class. cbn [simplify kc_required fst kc_normalized]. unfold beautify at 1.
  rewrite expand_requests_ok.
  2:{ apply Forall_app. split; [apply recognised_classes|]. constructor; [discriminate|constructor]. }
  rewrite flat_map_app, meaning_classes. cbn [flat_map meaning]. cbn [bind]. change (match named_transform "center" with Some cs => cs | None => [] end ++ [])%list with [MeanCenter].
  rewrite E. replace (match (l ++ [MeanCenter])%list with
    | Sphere :: _ => Ok (l ++ [MeanCenter])%list | _ => Ok (l ++ [MeanCenter])%list end) with (Ok (l ++ [MeanCenter])%list)
    by (now destruct (l ++ [MeanCenter])%list as [|[] ?]).
  cbn [bind]. rewrite beautify_classes by exact S. cbn [bind]. now destruct (l ++ [MeanCenter])%list as [|[] ?].
Qed.
Theorem cov_list_cosine : cov_list cosine_class [Sphere] = Ok [Sphere; MeanCenter; Sphere].
Proof. reflexivity. Qed.

(** * In the tree *)

Section Tree.
  Context {D : Type}.
  Variables (feat : D -> mat) (kmat : D -> D -> mat) (sample : D) (d : nat).
  Hypothesis Hs : rect d (feat sample).
  Let num := explicit_numerics feat kmat sample.

  Theorem cov_value s k default x cs p : reached num true s -> cov_list k default = Ok cs ->
    requested (t_default s) (Some (map RCls cs)) = Ok p -> enough_points p (length (feat sample)) ->
    rect d (feat (object sample s x)) -> feat (object sample s x) <> [] ->
    exists phi s', value_of num true p (option_map (t_heap s) x) None = Ok (VMat phi) /\ rect d phi /\ phi <> [] /\
      cov num k default x s = (Ok (VMat (second_moment phi)), s').
  Proof.
    intros Hr Hc Hp Hn Hx Hne. destruct (reached_inv num true s Hr) as (z & Hz).
    destruct (value_shape feat kmat sample d Hs s p x Hn Hx) as (phi & E & R & L).
    assert (N : phi <> []) by (intros ->; destruct (feat (object sample s x)); [now apply Hne|discriminate L]).
    destruct (apply_value num true z s x None (Some (map RCls cs)) p Hz Hp) as (s' & Ea & _).
    exists phi, s'. split; [exact E|]. split; [exact R|]. split; [exact N|].
    unfold cov. rewrite Hc. unfold mbind. rewrite Ea. cbn [option_map].
    replace (value_of num true p (option_map (t_heap s) x) None) with (Ok (VMat phi)) by (symmetry; exact E).
    unfold mret. now rewrite real_c_value.
  Qed.

  (** No points, no covariance. *)
  Theorem cov_no_points s k default x cs p : reached num true s -> cov_list k default = Ok cs ->
    requested (t_default s) (Some (map RCls cs)) = Ok p -> enough_points p (length (feat sample)) ->
    feat (object sample s x) = [] ->
    exists s', cov num k default x s = (Err EDivisionByZero, s') /\ corr num k default x s = (Err EDivisionByZero, s').
  Proof.
    intros Hr Hc Hp Hn He. destruct (reached_inv num true s Hr) as (z & Hz).
    assert (Hx : rect d (feat (object sample s x))) by (rewrite He; constructor).
    destruct (value_shape feat kmat sample d Hs s p x Hn Hx) as (phi & E & R & L).
    assert (N : phi = []) by (rewrite He in L; destruct phi; [reflexivity|discriminate L]). subst phi.
    destruct (apply_value num true z s x None (Some (map RCls cs)) p Hz Hp) as (s' & Ea & _). exists s'.
    assert (C : cov num k default x s = (Err EDivisionByZero, s')).
    { unfold cov. rewrite Hc. unfold mbind. rewrite Ea. cbn [option_map].
      replace (value_of num true p (option_map (t_heap s) x) None) with (Ok (VMat [])) by (symmetry; exact E). reflexivity. }
    split; [exact C|]. unfold corr, mbind. now rewrite C.
  Qed.

  (** Covariances are symmetric and positive semi-definite. *)
  Theorem cov_symmetric s k default x cs p : reached num true s -> cov_list k default = Ok cs ->
    requested (t_default s) (Some (map RCls cs)) = Ok p -> enough_points p (length (feat sample)) ->
    rect d (feat (object sample s x)) -> feat (object sample s x) <> [] ->
    exists c s', cov num k default x s = (Ok (VMat c), s') /\ length c = d /\ rect d c /\
      (forall v, 0 <= quad c v) /\ forall i j, (i < d)%nat -> (j < d)%nat -> entry c i j = entry c j i /\ 0 <= entry c i i /\
        entry c i j * entry c i j <= entry c i i * entry c j j.
  Proof.
    intros Hr Hc Hp Hn Hx Hne. destruct (cov_value s k default x cs p Hr Hc Hp Hn Hx Hne) as (phi & s' & E & R & N & Ec).
    exists (second_moment phi), s'. split; [exact Ec|]. destruct (second_moment_shape phi d N R) as (L & Rc).
    split; [exact L|]. split; [exact Rc|]. split; [intros v; now apply second_moment_psd|]. intros i j Hi Hj. pose proof (rect_width d phi R N) as W.
    rewrite !second_moment_entry by (rewrite W; assumption).
    pose proof (INR_length_pos phi N) as P. assert (Q : 0 < 1 / INR (length phi)) by (apply Rdiv_lt_0_compat; lra).
    split; [now rewrite dot_comm|]. split; [pose proof (dot_self_nonneg (column i phi)); nra|].
    pose proof (dot_cauchy (column i phi) (column j phi) ltac:(now rewrite !column_length)) as C.
    set (q := 1 / INR (length phi)) in *. set (u := dot (column i phi) (column j phi)) in *.
    set (v := dot (column i phi) (column i phi)) in *. set (w := dot (column j phi) (column j phi)) in *.
    replace (q * u * (q * u)) with (q * q * (u * u)) by ring. replace (q * v * (q * w)) with (q * q * (v * w)) by ring.
    apply Rmult_le_compat_l; [nra|exact C].
  Qed.

  Lemma correlation_value c : length c = d -> rect d c -> (forall i, (i < d)%nat -> 0 < entry c i i) ->
    exists r, correlation c = VMat r /\ length r = d /\ rect d r /\
      forall i j, (i < d)%nat -> (j < d)%nat -> entry r i j = entry c i j / (sqrt (entry c i i) * sqrt (entry c j j)).
  Proof.
    intros L R P. unfold correlation.
    destruct (existsb _ _) eqn:X.
    { apply existsb_exists in X as (v & Iv & Ev). apply (In_nth _ _ 0) in Iv as (i & Hi & <-).
      rewrite diag_length, L in Hi. rewrite diag_nth in Ev by (now rewrite L). specialize (P i Hi).
      destruct (Req_EM_T (entry c i i) 0); [lra|discriminate]. }
    set (s := map sqrt (diag c)). assert (Ls : length s = d) by (unfold s; now rewrite map_length, diag_length).
    assert (Ns : forall i, (i < d)%nat -> nth i s 0 = sqrt (entry c i i)).
    { intros i Hi. unfold s. rewrite (nth_indep _ 0 (sqrt 0)) by (now rewrite map_length, diag_length, L).
      rewrite (map_nth sqrt), diag_nth by (now rewrite L). reflexivity. }
    set (r := zipw (fun r a => zipw (fun v b => v / (a * b)) r s) c s).
    assert (Len : length r = d) by (transitivity (length c); [exact (zipw_length _ c s (eq_trans L (eq_sym Ls)))|exact L]).
    assert (Row : forall i, (i < d)%nat -> nth i r [] = zipw (fun v b => v / (nth i s 0 * b)) (nth i c []) s).
    { intros i Hi. exact (zipw_nth _ c s i [] 0 [] (eq_ind_r (fun n => (i < n)%nat) Hi L) (eq_ind_r (fun n => (i < n)%nat) Hi Ls)). }
    assert (Lr : forall i, (i < d)%nat -> length (nth i c []) = d) by (intros i Hi; apply (rect_nth d c i R); now rewrite L).
    exists r. split; [reflexivity|]. split; [exact Len|]. split.
    - apply Forall_forall. intros q Hq. destruct (In_nth r q [] Hq) as (i & Hi & Eq).
      pose proof (eq_ind _ (fun n => (i < n)%nat) Hi _ Len) as Hi'. cbv beta in Hi'.
      rewrite <- Eq. transitivity (length (zipw (fun v b => v / (nth i s 0 * b)) (nth i c []) s)); [f_equal; exact (Row i Hi')|].
      rewrite zipw_length; [now apply Lr|]. now rewrite Lr, Ls.
    - intros i j Hi Hj. unfold entry at 1. transitivity (nth j (zipw (fun v b => v / (nth i s 0 * b)) (nth i c []) s) 0).
      + f_equal. exact (Row i Hi).
      + rewrite (zipw_nth _ _ _ j 0 0 0) by (rewrite ?Lr, ?Ls; assumption). rewrite !Ns by assumption. reflexivity.
  Qed.

  Theorem corr_is_correlation s k default x cs p : reached num true s -> cov_list k default = Ok cs ->
    requested (t_default s) (Some (map RCls cs)) = Ok p -> enough_points p (length (feat sample)) ->
    rect d (feat (object sample s x)) -> feat (object sample s x) <> [] ->
    exists c s', cov num k default x s = (Ok (VMat c), s') /\
      ((forall i, (i < d)%nat -> 0 < entry c i i) ->
       exists r, corr num k default x s = (Ok (VMat r), s') /\ length r = d /\ rect d r /\
         forall i j, (i < d)%nat -> (j < d)%nat ->
           entry r i i = 1 /\ entry r i j = entry r j i /\ -1 <= entry r i j <= 1) /\
      ((exists i, (i < d)%nat /\ entry c i i = 0) -> corr num k default x s = (Ok VNaN, s')).
  Proof.
    intros Hr Hc Hp Hn Hx Hne. destruct (cov_symmetric s k default x cs p Hr Hc Hp Hn Hx Hne) as (c & s' & E & L & R & _ & F).
    exists c, s'. split; [exact E|]. split.
    - intros P. destruct (correlation_value c L R P) as (r & Er & Lr & Rr & V). exists r.
      split; [unfold corr, mbind; rewrite E; unfold mret; cbn [real_corr]; now rewrite Er|].
      split; [exact Lr|]. split; [exact Rr|]. intros i j Hi Hj. rewrite !V by assumption.
      destruct (F i j Hi Hj) as (S & _ & C). rewrite <- S.
      pose proof (P i Hi) as Pi. pose proof (P j Hj) as Pj.
      pose proof (sqrt_lt_R0 _ Pi) as Si. pose proof (sqrt_lt_R0 _ Pj) as Sj.
      pose proof (sqrt_sqrt (entry c i i) ltac:(lra)) as Qi. pose proof (sqrt_sqrt (entry c j j) ltac:(lra)) as Qj.
      set (a := sqrt (entry c i i)) in *. set (b := sqrt (entry c j j)) in *.
      assert (Pab : 0 < a * b) by (now apply Rmult_lt_0_compat).
      split; [rewrite <- Qi; field; lra|]. split; [f_equal; ring|].
      assert (C' : entry c i j * entry c i j <= (a * b) * (a * b)).
      { rewrite <- Qi, <- Qj in C. replace (a * b * (a * b)) with (a * a * (b * b)) by ring. exact C. }
      assert (A : Rabs (entry c i j) <= a * b).
      { apply Rsqr_le_abs_0 in C'. rewrite (Rabs_right (a * b)) in C' by lra. exact C'. }
      pose proof (Rle_abs (entry c i j)) as A1. pose proof (Rle_abs (- entry c i j)) as A2. rewrite Rabs_Ropp in A2.
      split.
      + apply (Rmult_le_reg_r (a * b)); [exact Pab|]. replace (entry c i j / (a * b) * (a * b)) with (entry c i j) by (field; lra). lra.
      + apply (Rmult_le_reg_r (a * b)); [exact Pab|]. replace (entry c i j / (a * b) * (a * b)) with (entry c i j) by (field; lra). lra.
    - intros (i & Hi & Z). unfold corr, mbind. rewrite E. unfold mret. cbn [real_corr]. unfold correlation.
      replace (existsb _ _) with true; [reflexivity|]. symmetry. apply existsb_exists. exists 0. split.
      + rewrite <- Z. rewrite <- diag_nth by (now rewrite L). apply nth_In. now rewrite diag_length, L.
      + destruct (Req_EM_T 0 0); [reflexivity|contradiction].
  Qed.

  (** The covariance of the sample features, for kernels without a required transform. *)
  Theorem cov_sample_is_covariance s default : reached num true s -> no_repeat default ->
    enough_points default (length (feat sample)) ->
    exists l m c s', (default = l \/ default = l ++ [MeanCenter])%list /\ chain_sample num (rev l) = Ok (VMat m) /\
      cov num plain_class default None s = (Ok (VMat c), s') /\
      forall i j, (i < d)%nat -> (j < d)%nat -> entry c i j = covariance (column i m) (column j m).
  Proof.
    intros Hr Hd (Hn1 & Hn2). destruct (cov_list_plain default Hd) as (l & Ec & Sl & Dl).
    assert (Hp : requested (t_default s) (Some (map RCls (l ++ [MeanCenter]))) = Ok (MeanCenter :: rev l)).
    { cbn [requested]. rewrite beautify_classes by exact Sl. cbn [bind]. now rewrite rev_app_distr. }
    assert (Hn : enough_points (rev l) (length (feat sample))).
    { split; [exact Hn1|]. intros I. apply Hn2. apply in_rev in I. destruct Dl as [->| ->]; [exact I|apply in_or_app; now left]. }
    assert (Hn' : enough_points (MeanCenter :: rev l) (length (feat sample))).
    { split; [exact Hn1|]. intros [I|I]; [discriminate I|]. now apply Hn. }
    assert (Ne : feat sample <> []) by (intros Z; rewrite Z in Hn1; cbn in Hn1; lia).
    destruct (cov_value s plain_class default None _ _ Hr Ec Hp Hn' Hs Ne) as (phi & s' & E & R & N & Ev).
    destruct (before feat kmat sample d Hs (rev l) MeanCenter Hn') as (m & Em & Rm & Nm & Lm).
    destruct (centered_sample feat kmat sample d (rev l) m Em Rm Nm) as (E1 & _).
    cbn [option_map value_of] in E.
    assert (Q : phi = sub_rows m (colwise mean m)).
    { assert (X : Ok (VMat phi) = Ok (VMat (sub_rows m (colwise mean m)))) by (transitivity (chain_sample num (MeanCenter :: rev l)); [symmetry; exact E|exact E1]).
      now injection X. }
    exists l, m, (second_moment phi), s'. split; [exact Dl|]. split; [exact Em|]. split; [exact Ev|].
    intros i j Hi Hj. pose proof (rect_width d phi R N) as W. rewrite second_moment_entry by (rewrite W; assumption).
    pose proof (rect_width d m Rm Nm) as Wm.
    assert (Col : forall i, (i < d)%nat -> column i phi = map (fun v => v - mean (column i m)) (column i m)).
    { intros a Ha. rewrite Q. unfold sub_rows. rewrite (column_map_zip Rminus d m _ a Rm); [|now rewrite colwise_length|exact Ha].
      rewrite colwise_nth by (now rewrite Wm). reflexivity. }
    rewrite !Col by assumption. unfold covariance, mean at 3, dot. rewrite zipw_length by (now rewrite !column_length).
    rewrite column_length. rewrite zipw_map_l, zipw_map_r.
    replace (length phi) with (length m) by (rewrite Q; unfold sub_rows; now rewrite map_length).
    unfold Rdiv. rewrite Rmult_1_l. apply Rmult_comm.
  Qed.
End Tree.

Lemma covariance_shift (a b : vec) u v : a <> [] -> length a = length b ->
  covariance (map (fun x => x - u) a) (map (fun x => x - v) b) = covariance a b.
Proof.
  intros N L. assert (N' : b <> []) by (intros ->; destruct a; [now apply N|discriminate L]).
  unfold covariance. rewrite !mean_map_minus_const by assumption. f_equal. rewrite zipw_map_l, zipw_map_r.
  clear L N N'. revert b. generalize (mean a) as p. intros p b. generalize (mean b) as q. intros q.
  revert b. induction a as [|x a IH]; intros [|y b]; try reflexivity. cbn [zipw]. f_equal; [ring|apply IH].
Qed.

Section Features.
  Context {D : Type}.
  Variables (feat : D -> mat) (kmat : D -> D -> mat) (sample : D) (d : nat).
  Hypothesis Hs : rect d (feat sample).
  Let num := explicit_numerics feat kmat sample.

  (** In terms of the features with the default transform. *)
  Theorem cov_of_sample_features s default : reached num true s -> no_repeat default ->
    enough_points default (length (feat sample)) ->
    exists m c s1 s2, apply num true None None (Some (map RCls default)) s = (Ok (VMat m), s1) /\
      cov num plain_class default None s = (Ok (VMat c), s2) /\
      forall i j, (i < d)%nat -> (j < d)%nat -> entry c i j = covariance (column i m) (column j m).
  Proof.
    intros Hr Hd Hn. destruct (cov_sample_is_covariance feat kmat sample d Hs s default Hr Hd Hn) as (l & m & c & s2 & Dl & Em & Ec & F).
    destruct (reached_inv num true s Hr) as (z & Hz).
    assert (Hp : requested (t_default s) (Some (map RCls default)) = Ok (rev default)).
    { cbn [requested]. now rewrite beautify_classes. }
    destruct (apply_value num true z s None None (Some (map RCls default)) _ Hz Hp) as (s1 & Ea & _).
    cbn [option_map value_of] in Ea.
    destruct Dl as [Dl|Dl].
    - exists m, c, s1, s2. split; [|split; [exact Ec|exact F]]. rewrite Ea, Dl. f_equal. exact Em.
    - assert (Hn' : enough_points (MeanCenter :: rev l) (length (feat sample))).
      { destruct Hn as (Hn1 & Hn2). split; [exact Hn1|]. intros [I|I]; [discriminate I|]. apply Hn2. rewrite Dl.
        apply in_or_app. left. now apply in_rev. }
      destruct (before feat kmat sample d Hs (rev l) MeanCenter Hn') as (m' & Em' & Rm & Nm & _).
      assert (Q : m' = m).
      { assert (X : Ok (VMat m') = Ok (VMat m)) by (transitivity (chain_sample num (rev l)); [symmetry; exact Em'|exact Em]). now injection X. }
      subst m'. destruct (centered_sample feat kmat sample d (rev l) m Em Rm Nm) as (E1 & _).
      exists (sub_rows m (colwise mean m)), c, s1, s2. split.
      { rewrite Ea, Dl, rev_app_distr. f_equal. exact E1. }
      split; [exact Ec|]. intros i j Hi Hj. rewrite (F i j Hi Hj).
      pose proof (rect_width d m Rm Nm) as Wm.
      assert (Col : forall i, (i < d)%nat -> column i (sub_rows m (colwise mean m)) = map (fun v => v - mean (column i m)) (column i m)).
      { intros a Ha. unfold sub_rows. rewrite (column_map_zip Rminus d m _ a Rm); [|now rewrite colwise_length|exact Ha].
        rewrite colwise_nth by (now rewrite Wm). reflexivity. }
      rewrite !Col by assumption. symmetry. apply covariance_shift; [|now rewrite !column_length].
      destruct m; [now elim Nm|discriminate].
  Qed.
End Features.

(** * Counterexamples *)

(** Out of sample, the mean of the sample is subtracted, not that of the data. *)
Lemma oos_cov_not_covariance s x : reached (sample_numerics [[0]]) true s -> t_heap s x = [[1]] ->
  exists s', cov (sample_numerics [[0]]) plain_class [] (Some x) s = (Ok (VMat [[1]]), s').
Proof.
  intros Hr Hx. destruct (reached_inv _ true s Hr) as (z & Hz).
  destruct (apply_value _ true z s (Some x) None (Some (map RCls [MeanCenter])) [MeanCenter] Hz eq_refl) as (s' & E & _).
  exists s'. unfold cov. change (cov_list plain_class []) with (Ok [MeanCenter]). unfold mbind. rewrite E. unfold mret.
  cbn [option_map]. rewrite Hx. cbn [value_of]. apply (f_equal (fun q => (q, s'))).
  change (Ok (VMat [[1 / INR 1 * (((1 - (0 + 0) / INR 1) * (1 - (0 + 0) / INR 1)) + 0)]]) = Ok (VMat [[1]])).
  apply (f_equal (fun q => Ok (VMat [[q]]))). cbn [INR]. field.
Qed.
Lemma single_covariance v : covariance [v] [v] = 0.
Proof. unfold covariance, mean, sum. cbn [zipw fold_right length INR]. field. Qed.

(** The features of the cosine kernel are normalised again once centred. *)
Definition signs : mat := [[1]; [1]; [-1]].
Lemma norm_one v : norm [v] = Rabs v.
Proof.
  unfold norm, dot. cbn [zipw]. rewrite sum_cons. replace (v * v + sum []) with (Rsqr v) by (unfold Rsqr, sum; cbn; ring).
  apply sqrt_Rsqr_abs.
Qed.
Lemma clamp_unit v : / 10 <= v -> clamp v = v.
Proof. intros H. apply clamp_big. unfold EPS. apply (Rle_trans _ (/ 10)); [apply Rinv_le_contravar; lra|exact H]. Qed.
Lemma sphere_signs : div_norms signs (map norm signs) = signs.
Proof.
  unfold signs. cbn [map]. rewrite !norm_one. rewrite (Rabs_left (-1)) by lra. rewrite (Rabs_right 1) by lra.
  cbn [div_norms zipw map]. rewrite !clamp_unit by lra. repeat (f_equal; try field).
Qed.
Lemma center_signs : sub_rows signs (colwise mean signs) = [[2 / 3]; [2 / 3]; [- (4 / 3)]].
Proof.
  unfold signs, colwise, sub_rows, width, column, mean, sum. cbn [nth length seq map zipw fold_right INR].
  repeat (f_equal; try field).
Qed.
Lemma sphere_centered : div_norms [[2 / 3]; [2 / 3]; [- (4 / 3)]] (map norm [[2 / 3]; [2 / 3]; [- (4 / 3)]]) = signs.
Proof.
  cbn [map]. rewrite !norm_one. rewrite (Rabs_left (- (4 / 3))) by lra. rewrite (Rabs_right (2 / 3)) by lra.
  cbn [div_norms zipw map]. rewrite !clamp_unit by lra. unfold signs. repeat (f_equal; try field).
Qed.
Lemma cosine_cov s : reached (sample_numerics signs) true s ->
  exists s', cov (sample_numerics signs) cosine_class [Sphere] None s = (Ok (VMat [[1]]), s').
Proof.
  intros Hr. destruct (reached_inv _ true s Hr) as (z & Hz).
  destruct (apply_value _ true z s None None (Some (map RCls [Sphere; MeanCenter; Sphere])) [Sphere; MeanCenter; Sphere] Hz eq_refl) as (s' & E & _).
  exists s'. unfold cov. change (cov_list cosine_class [Sphere]) with (Ok [Sphere; MeanCenter; Sphere]). unfold mbind. rewrite E. unfold mret.
  apply (f_equal (fun q => (q, s'))). cbn [option_map value_of].
  change (bind (Ok (VMat (div_norms (sub_rows (div_norms signs (map norm signs)) (colwise mean (div_norms signs (map norm signs))))
    (map norm (sub_rows (div_norms signs (map norm signs)) (colwise mean (div_norms signs (map norm signs)))))))) real_c = Ok (VMat [[1]])).
  rewrite sphere_signs, center_signs, sphere_centered. cbn [bind].
  change (Ok (VMat [[1 / INR 3 * (1 * 1 + (1 * 1 + (-1 * -1 + 0)))]]) = Ok (VMat [[1]])).
  apply (f_equal (fun q => Ok (VMat [[q]]))). cbn [INR]. field.
Qed.
Lemma signs_covariance : covariance (column 0 signs) (column 0 signs) = 8 / 9.
Proof. unfold covariance, signs, column, mean, sum. cbn [nth map zipw fold_right length INR]. field. Qed.
