(** Centered kernel matrices, agreement of both formulations at the level of the
    tree, and counterexamples. *)
From Verif Require Import Base Cache CacheSpec Beautify TransformTree TransformSpec TransformProofs
  RVec RVecProofs TransformR TransformRSpec TransformRProofs TransformRTree.
Open Scope R_scope.

(** ** Sums of a centered matrix *)

Lemma sum_centered_row r b c t : length r = length b ->
  sum (zipw (fun v y => v - c - y + t) r b) = sum r - INR (length r) * c - sum b + INR (length r) * t.
Proof.
  revert b. induction r as [|v r IH]; intros [|y b] H; try discriminate H.
  - cbn. ring.
  - cbn [zipw]. rewrite !sum_cons, IH by (now injection H). cbn [length]. rewrite S_INR. ring.
Qed.

Lemma center2_rows k b t : center2 k (map mean k) b t = map (fun r => zipw (fun v y => v - mean r - y + t) r b) k.
Proof. unfold center2. rewrite zipw_map_r, zipw_same. reflexivity. Qed.

Section Center.
  Variables (n : nat) (k : mat).
  Hypothesis Hk : rect n k.
  Hypothesis Hn : length k = n.
  Hypothesis Hne : (1 <= n)%nat.
  Let a := map mean k.
  Let tot := mean a.

  Lemma a_length : length a = n.
  Proof. subst a. now rewrite map_length. Qed.
  Lemma n_pos : 0 < INR n.
  Proof. apply lt_0_INR. lia. Qed.
  Lemma sum_a : INR n * tot = sum a.
  Proof. unfold tot, mean. rewrite a_length. pose proof n_pos. field. lra. Qed.

  (** Kernel of any points with the sample. *)
  Lemma centered_rows_zero kx r : rect n kx -> In r (center2 kx (map mean kx) a tot) -> sum r = 0.
  Proof.
    intros Hx Hr. rewrite center2_rows in Hr. apply in_map_iff in Hr as (q & <- & Hq).
    apply (proj1 (Forall_forall _ _) Hx) in Hq. rewrite sum_centered_row by (now rewrite a_length).
    rewrite Hq, <- sum_a. unfold mean at 1. rewrite Hq. pose proof n_pos. field. lra.
  Qed.

  Lemma centered_shape kx : rect n kx -> rect n (center2 kx (map mean kx) a tot) /\
    length (center2 kx (map mean kx) a tot) = length kx.
  Proof.
    intros Hx. rewrite center2_rows. split; [|apply map_length].
    apply Forall_map, Forall_forall. intros r Hr. apply (proj1 (Forall_forall _ _) Hx) in Hr.
    rewrite zipw_length; [exact Hr|]. now rewrite a_length.
  Qed.

  Lemma sym_row j : symmetric k -> (j < n)%nat -> nth j k [] = column j k.
  Proof.
    intros Hsym Hj. transitivity (nth j (transpose k) []); [now rewrite Hsym|]. unfold transpose.
    rewrite (rect_width n k Hk) by (intros E; rewrite E in Hn; cbn in Hn; lia).
    rewrite (nth_indep (map (fun i => column i k) (seq 0 n)) [] (column O k)) by (now rewrite map_length, seq_length).
    rewrite (map_nth (fun i => column i k)), seq_nth by exact Hj. reflexivity.
  Qed.

  Lemma centered_columns_zero j : symmetric k -> (j < n)%nat -> sum (column j (center2 k a a tot)) = 0.
  Proof.
    intros Hsym Hj. unfold a at 1. rewrite center2_rows. unfold column. rewrite map_map.
    transitivity (sum (map (fun r : vec => nth j r 0 - mean r - (nth j a 0 - tot)) k)).
    - apply sum_map_ext. intros r Hr. apply (proj1 (Forall_forall _ _) Hk) in Hr.
      rewrite (zipw_nth _ r a j 0 0) by (rewrite ?a_length, ?Hr; exact Hj). ring.
    - rewrite (sum_map_minus (fun r : vec => nth j r 0 - mean r) (fun _ => nth j a 0 - tot)), sum_map_const.
      rewrite (sum_map_minus (fun r : vec => nth j r 0) mean). fold a. rewrite Hn.
      assert (Ha : nth j a 0 = sum (column j k) / INR n).
      { unfold a. rewrite (nth_indep (map mean k) 0 (mean [])) by (rewrite map_length, Hn; exact Hj).
        rewrite map_nth, (sym_row j Hsym Hj). unfold mean. now rewrite column_length, Hn. }
      change (sum (map (fun r : vec => nth j r 0) k)) with (sum (column j k)).
      rewrite Ha, <- sum_a. pose proof n_pos. field. lra.
  Qed.

  (** Centering a matrix whose means are zero changes nothing. *)
  Lemma center_zero m b w : length b = w -> rect w m ->
    center2 m (map (fun _ => 0) m) (map (fun _ : R => 0) b) 0 = m.
  Proof.
    intros Hb Hm. unfold center2. rewrite zipw_map_r, zipw_same. rewrite <- (map_id m) at 2. apply map_ext_in.
    intros r Hr. apply (proj1 (Forall_forall _ _) Hm) in Hr. rewrite <- Hr in Hb. clear Hr.
    revert b Hb. induction r as [|v r IH]; intros [|y b] Hb; try discriminate Hb; [reflexivity|].
    cbn [map zipw]. rewrite IH by (now injection Hb). f_equal. ring.
  Qed.

  Lemma means_zero kx : rect n kx -> map mean (center2 kx (map mean kx) a tot) =
    map (fun _ => 0) (center2 kx (map mean kx) a tot).
  Proof.
    intros Hx. apply map_ext_in. intros r Hr. unfold mean at 1.
    rewrite (centered_rows_zero kx r Hx Hr). unfold Rdiv. apply Rmult_0_l.
  Qed.
  Lemma mean_zeros {A} (l : list A) : mean (map (fun _ => 0) l) = 0.
  Proof. rewrite mean_map, sum_map_const. unfold Rdiv. ring. Qed.
  Lemma map_zeros {A B} (l : list A) (m : list B) : length l = length m -> map (fun _ => 0) l = map (fun _ => 0) m.
  Proof. apply map_const_length. Qed.
End Center.

(** ** Centering in the tree *)

Section CenterTree.
  Context {D : Type}.
  Variables (feat : D -> mat) (kmat : D -> D -> mat) (sample : D).
  Let num := implicit_numerics feat kmat sample.

  Lemma ksample_center p n k : kchain_sample num p = Ok (VMat k) -> square n k -> (1 <= n)%nat ->
    kchain_stat num MeanCenter p = Ok (VMeans (map mean k) (mean (map mean k))) /\
    kchain_sample num (MeanCenter :: p) = Ok (VMat (center2 k (map mean k) (map mean k) (mean (map mean k)))).
  Proof.
    intros E [Hk Hl] Hn. unfold kchain_stat. cbn [kchain_sample]. rewrite E. cbn [bind].
    destruct k as [|r k']; [cbn in Hl; lia|]. split; reflexivity.
  Qed.

  Lemma koos_center p n k x kx : kchain_sample num p = Ok (VMat k) -> square n k -> (1 <= n)%nat ->
    kchain num p x None = Ok (VMat kx) ->
    kpoint_stat num MeanCenter p (kchain num p) x = Ok (VMeans (map mean kx) (mean (map mean k))) /\
    kchain num (MeanCenter :: p) x None =
      Ok (VMat (center2 kx (map mean kx) (map mean k) (mean (map mean k)))).
  Proof.
    intros E Hk Hn Ex. destruct (ksample_center p n k E Hk Hn) as [Es _].
    assert (Ep : kpoint_stat num MeanCenter p (kchain num p) x = Ok (VMeans (map mean kx) (mean (map mean k)))).
    { unfold kpoint_stat. rewrite Ex. cbn [bind]. rewrite Es. reflexivity. }
    split; [exact Ep|]. cbn [kchain]. rewrite Ep. cbn [bind]. rewrite Es, Ex. reflexivity.
  Qed.

  Lemma koos2_center p n k x y kx ky kxy : kchain_sample num p = Ok (VMat k) -> square n k -> (1 <= n)%nat ->
    kchain num p x None = Ok (VMat kx) -> kchain num p y None = Ok (VMat ky) ->
    kchain num p x (Some y) = Ok (VMat kxy) ->
    kchain num (MeanCenter :: p) x (Some y) =
      Ok (VMat (center2 kxy (map mean kx) (map mean ky) (mean (map mean k)))).
  Proof.
    intros E Hk Hn Ex Ey Exy. destruct (koos_center p n k x kx E Hk Hn Ex) as [Epx _].
    destruct (koos_center p n k y ky E Hk Hn Ey) as [Epy _].
    cbn [kchain]. rewrite Epx. cbn [bind]. rewrite Epy. cbn [bind]. rewrite Exy. reflexivity.
  Qed.

  (** Sample. *)
  Lemma apply_centered_sample s r p n k : reached num false s -> requested (t_default s) r = Ok (MeanCenter :: p) ->
    value_of num false p None None = Ok (VMat k) -> square n k -> (1 <= n)%nat ->
    exists o s', apply num false None None r s = (Ok (VMat o), s') /\ square n o /\
      (forall row, In row o -> sum row = 0) /\
      (symmetric k -> forall j, (j < n)%nat -> sum (column j o) = 0).
  Proof.
    intros Hr Hp E [Hk Hl] Hn. destruct (reached_inv num false s Hr) as (z & Hz).
    destruct (apply_value num false z s None None r _ Hz Hp) as (s' & Ea & _).
    destruct (ksample_center p n k E (conj Hk Hl) Hn) as [_ Ec].
    exists (center2 k (map mean k) (map mean k) (mean (map mean k))), s'. rewrite Ea.
    split; [exact (f_equal (fun q => (q, s')) Ec)|].
    destruct (centered_shape n k Hl k Hk) as [Hs1 Hs2].
    split; [split; [exact Hs1|now rewrite Hs2]|]. split.
    - intros row. now apply (centered_rows_zero n k Hl Hn k row).
    - intros Hsym j Hj. now apply (centered_columns_zero n k).
  Qed.

  (** New points with the sample. *)
  Lemma apply_centered_oos s r p n k x kx : reached num false s ->
    requested (t_default s) r = Ok (MeanCenter :: p) ->
    value_of num false p None None = Ok (VMat k) -> square n k -> (1 <= n)%nat ->
    value_of num false p (Some (t_heap s x)) None = Ok (VMat kx) -> rect n kx ->
    exists o s', apply num false (Some x) None r s = (Ok (VMat o), s') /\ rect n o /\ length o = length kx /\
      (forall row, In row o -> sum row = 0).
  Proof.
    intros Hr Hp E [Hk Hl] Hn Ex Hx. destruct (reached_inv num false s Hr) as (z & Hz).
    destruct (apply_value num false z s (Some x) None r _ Hz Hp) as (s' & Ea & _).
    destruct (koos_center p n k (t_heap s x) kx E (conj Hk Hl) Hn Ex) as [_ Ec].
    exists (center2 kx (map mean kx) (map mean k) (mean (map mean k))), s'. rewrite Ea.
    split; [exact (f_equal (fun q => (q, s')) Ec)|].
    destruct (centered_shape n k Hl kx Hx) as [Hs1 Hs2].
    split; [exact Hs1|]. split; [exact Hs2|]. intros row. now apply (centered_rows_zero n k Hl Hn kx row).
  Qed.

  (** Centering twice. *)
  Lemma center_twice p n k : value_of num false p None None = Ok (VMat k) -> square n k -> (1 <= n)%nat ->
    value_of num false (MeanCenter :: MeanCenter :: p) None None = value_of num false (MeanCenter :: p) None None.
  Proof.
    intros E [Hk Hl] Hn. cbn [value_of]. destruct (ksample_center p n k E (conj Hk Hl) Hn) as [_ Ec].
    destruct (centered_shape n k Hl k Hk) as [Hs1 Hs2].
    destruct (ksample_center (MeanCenter :: p) n _ Ec) as [_ Ec2]; [split; [exact Hs1|now rewrite Hs2]|exact Hn|].
    rewrite Ec2, Ec. apply (f_equal (fun m => Ok (VMat m))).
    rewrite (means_zero n k Hl Hn k Hk), mean_zeros.
    rewrite (map_zeros _ (map (fun _ : vec => 0) k)) at 2 by (now rewrite map_length, Hs2).
    apply (center_zero _ _ n); [now rewrite map_length|exact Hs1].
  Qed.

  Lemma center_twice_oos p n k x kx : value_of num false p None None = Ok (VMat k) -> square n k -> (1 <= n)%nat ->
    value_of num false p (Some x) None = Ok (VMat kx) -> rect n kx ->
    value_of num false (MeanCenter :: MeanCenter :: p) (Some x) None =
    value_of num false (MeanCenter :: p) (Some x) None.
  Proof.
    intros E [Hk Hl] Hn Ex Hx. cbn [value_of]. destruct (ksample_center p n k E (conj Hk Hl) Hn) as [_ Ec].
    destruct (koos_center p n k x kx E (conj Hk Hl) Hn Ex) as [_ Eo].
    destruct (centered_shape n k Hl k Hk) as [Hs1 Hs2]. destruct (centered_shape n k Hl kx Hx) as [Hs3 Hs4].
    destruct (koos_center (MeanCenter :: p) n _ x _ Ec (conj Hs1 (eq_trans Hs2 Hl)) Hn Eo) as [_ Eo2].
    rewrite Eo2, Eo. apply (f_equal (fun m => Ok (VMat m))).
    rewrite (means_zero n k Hl Hn k Hk), (means_zero n k Hl Hn kx Hx), mean_zeros.
    rewrite (map_zeros (center2 k (map mean k) (map mean k) (mean (map mean k))) (map (fun _ : vec => 0) k))
      by (rewrite map_length; exact Hs2).
    apply (center_zero _ _ n); [now rewrite map_length|exact Hs3].
  Qed.

  Lemma center_twice_oos2 p n k x y kx ky kxy :
    value_of num false p None None = Ok (VMat k) -> square n k -> (1 <= n)%nat ->
    value_of num false p (Some x) None = Ok (VMat kx) -> rect n kx ->
    value_of num false p (Some y) None = Ok (VMat ky) -> rect n ky ->
    value_of num false p (Some x) (Some y) = Ok (VMat kxy) -> rect (length ky) kxy -> length kxy = length kx ->
    value_of num false (MeanCenter :: MeanCenter :: p) (Some x) (Some y) =
    value_of num false (MeanCenter :: p) (Some x) (Some y).
  Proof.
    intros E [Hk Hl] Hn Ex Hx Ey Hy Exy Hxy Lxy. cbn [value_of].
    destruct (ksample_center p n k E (conj Hk Hl) Hn) as [_ Ec].
    destruct (koos_center p n k x kx E (conj Hk Hl) Hn Ex) as [_ Eox].
    destruct (koos_center p n k y ky E (conj Hk Hl) Hn Ey) as [_ Eoy].
    pose proof (koos2_center p n k x y kx ky kxy E (conj Hk Hl) Hn Ex Ey Exy) as Eo.
    destruct (centered_shape n k Hl k Hk) as [Hs1 Hs2]. destruct (centered_shape n k Hl kx Hx) as [Hs3 Hs4].
    destruct (centered_shape n k Hl ky Hy) as [Hs5 Hs6].
    rewrite (koos2_center (MeanCenter :: p) n _ x y _ _ _ Ec (conj Hs1 (eq_trans Hs2 Hl)) Hn Eox Eoy Eo), Eo.
    apply (f_equal (fun m => Ok (VMat m))).
    rewrite (means_zero n k Hl Hn k Hk), (means_zero n k Hl Hn kx Hx), (means_zero n k Hl Hn ky Hy), mean_zeros.
    set (m := center2 kxy _ _ _).
    assert (Lm : length m = length kx).
    { unfold m, center2. rewrite zipw_length; [exact Lxy|]. now rewrite map_length. }
    assert (Rm : rect (length ky) m).
    { unfold m, center2. apply Forall_forall. intros r Hr.
      assert (G : forall (u : mat) (v : vec), (forall q, In q u -> length q = length ky) ->
                In r (zipw (fun r0 x0 => zipw (fun v0 y0 => v0 - x0 - y0 + mean (map mean k)) r0 (map mean ky)) u v) ->
                length r = length ky).
      { induction u as [|q u IH]; intros [|w v] Hu Hin; cbn [zipw] in Hin; try (now destruct Hin).
        destruct Hin as [<-|Hin].
        - rewrite zipw_length; [now apply Hu; left|]. rewrite map_length. now apply Hu; left.
        - apply (IH v); [intros; apply Hu; now right|exact Hin]. }
      apply (G kxy (map mean kx)); [|exact Hr]. now apply Forall_forall. }
    rewrite (map_zeros (center2 kx (map mean kx) (map mean k) (mean (map mean k))) m) by (now rewrite Hs4, Lm).
    rewrite (map_zeros (center2 ky (map mean ky) (map mean k) (mean (map mean k))) (map (fun _ : vec => 0) ky))
      by (rewrite map_length; exact Hs6).
    apply (center_zero _ _ (length ky)); [now rewrite map_length|exact Rm].
  Qed.

  Lemma center_twice_new p n k x y kx ky kxy :
    value_of num false p None None = Ok (VMat k) -> square n k -> (1 <= n)%nat ->
    value_of num false p (Some x) None = Ok (VMat kx) -> rect n kx ->
    value_of num false p (Some y) None = Ok (VMat ky) -> rect n ky ->
    value_of num false p (Some x) (Some y) = Ok (VMat kxy) -> rect (length ky) kxy -> length kxy = length kx ->
    value_of num false (MeanCenter :: MeanCenter :: p) (Some x) None =
      value_of num false (MeanCenter :: p) (Some x) None /\
    value_of num false (MeanCenter :: MeanCenter :: p) (Some x) (Some y) =
      value_of num false (MeanCenter :: p) (Some x) (Some y).
  Proof.
    intros E Hk Hn Ex Hx Ey Hy Exy Hxy Lxy. split.
    - exact (center_twice_oos p n k x kx E Hk Hn Ex Hx).
    - exact (center_twice_oos2 p n k x y kx ky kxy E Hk Hn Ex Hx Ey Hy Exy Hxy Lxy).
  Qed.
End CenterTree.

(** ** Both formulations in two trees *)

Section Both.
  Context {D : Type}.
  Variables (feat : D -> mat) (sample : D) (d : nat).
  Let kmat := fun x y => gram (feat x) (feat y).
  Let nume := explicit_numerics feat kmat sample.
  Let numk := implicit_numerics feat kmat sample.

  Lemma trees_agree se sk r p same x y :
    rect d (feat sample) -> feat sample <> [] ->
    reached nume true se -> reached numk false sk -> t_heap se = t_heap sk ->
    requested (t_default se) r = Ok p -> requested (t_default sk) r = Ok p -> Forall kernelised p ->
    (same = true -> option_map (t_heap se) x = option_map (t_heap se) y) ->
    rect d (feat (object sample se x)) -> rect d (feat (object sample se y)) -> feat (object sample se y) <> [] ->
    away nume p None -> away nume p (option_map (t_heap se) x) -> away nume p (option_map (t_heap se) y) ->
    exists k se' sk', explicit_k nume same x y r se = (Ok (VMat k), se') /\
      apply numk false x y r sk = (Ok (VMat k), sk').
  Proof.
    intros Hs Hn Re Rk Hh Pe Pk Hp Hsame Hx Hy Hyn Ha Hax Hay.
    assert (Hpts : enough_points p (length (feat sample))) by (eapply kernelised_points; eassumption).
    destruct (explicit_k_value feat kmat sample d Hs se r p same x y Re Pe Hpts Hx Hy Hsame)
      as (a & b & se' & Ea & Eb & E & _).
    destruct (reached_inv numk false sk Rk) as (z & Hz).
    destruct (apply_value numk false z sk x y r p Hz Pk) as (sk' & Ek & _).
    destruct (implicit_is_explicit feat sample d Hs Hn p (option_map (t_heap se) x) (option_map (t_heap se) y))
      as (a' & b' & Ea' & Eb' & Ev); try assumption; try (destruct x; assumption); try (destruct y; assumption).
    exists (gram a b), se', sk'. split; [exact E|]. rewrite Ek, <- Hh.
    assert (a' = a).
    { assert (Q : Ok (VMat a') = Ok (VMat a)) by (rewrite <- Ea'; exact Ea). now injection Q. }
    assert (b' = b).
    { assert (Q : Ok (VMat b') = Ok (VMat b)) by (rewrite <- Eb'; exact Eb). now injection Q. }
    subst a' b'. exact (f_equal (fun q => (q, sk')) Ev).
  Qed.
End Both.
