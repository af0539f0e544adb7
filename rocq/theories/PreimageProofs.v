(** Pre-images by a kernel: proofs. *)
From Verif Require Import Base RVec RVecProofs KernelR KernelRSpec KernelRProofs Method MethodSpec MethodProofs Sample SampleProofs Preimage PreimageSpec.
Open Scope R_scope.

Lemma Forall2_len {A B} (P : A -> B -> Prop) l m : Forall2 P l m -> length l = length m.
Proof. induction 1 as [|a b l m _ _ IH]; [reflexivity|]. cbn. now rewrite IH. Qed.
Lemma mean_one v : mean [v] = v.
Proof. unfold mean, sum. cbn. field. Qed.
Lemma shape_strict k t : k <> Uniform -> 0 < t -> shape k t < shape k 0.
Proof.
  intros Hk Ht.
  assert (Hs := sqrt_half_pos).
  assert (P2 : 0 < t ^ 2) by (now apply pow_lt). assert (P3 : 0 < t ^ 3) by (now apply pow_lt).
  destruct k as [| | | | | | | |[|]]; cbn [shape];
    try (destruct (Rle_dec 0 1) as [_|N]; [|exfalso; lra]; destruct (Rle_dec t 1) as [L|L]; [|cbn; lra]).
  - cbn in *. lra.
  - pose proof (pow_unit t 2 ltac:(lra)) as U. set (a := t ^ 2) in *. replace ((1 - 0 ^ 2) ^ 2) with 1 by ring. nra.
  - pose proof (pow_unit t 2 ltac:(lra)) as U. set (a := t ^ 2) in *. replace ((1 - 0 ^ 2) ^ 3) with 1 by ring.
    replace ((1 - a) ^ 3) with ((1 - a) * ((1 - a) * (1 - a))) by ring. assert ((1 - a) * (1 - a) <= 1) by nra. nra.
  - pose proof (pow_unit t 3 ltac:(lra)) as U. set (a := t ^ 3) in *. replace ((1 - 0 ^ 3) ^ 3) with 1 by ring.
    replace ((1 - a) ^ 3) with ((1 - a) * ((1 - a) * (1 - a))) by ring. assert ((1 - a) * (1 - a) <= 1) by nra. nra.
  - lra.
  - now elim Hk.
  - assert (E : 1 < exp t) by (rewrite <- exp_0; now apply exp_increasing). rewrite Ropp_0, exp_0, exp_Ropp.
    assert (I : 2 < exp t + / exp t).
    { assert (Q : exp t + / exp t - 2 = (exp t - 1) * (exp t - 1) / exp t) by (field; lra).
      assert (0 < (exp t - 1) * (exp t - 1) / exp t) by (apply Rdiv_lt_0_compat; nra). lra. }
    apply Rmult_lt_compat_l; [lra|]. apply Rinv_lt_contravar; [|lra]. apply Rmult_lt_0_compat; lra.
  - set (u := sqrt (1 / 2) * t). assert (Hu : 0 < u) by (apply Rmult_lt_0_compat; assumption).
    rewrite Rmult_0_r, Ropp_0, exp_0, Rplus_0_r, Rmult_1_l, sin_plus, sin_PI4, cos_PI4.
    assert (E : 1 + u < exp u) by (apply exp_ineq1; lra). pose proof (COS_bound u) as [_ Cu].
    assert (Su : sin u < u) by (now apply sin_lt_x).
    assert (S2 : 0 < 1 / sqrt 2) by (apply Rdiv_lt_0_compat; [lra|apply sqrt_lt_R0; lra]).
    rewrite <- Rmult_plus_distr_l. rewrite exp_Ropp.
    assert (T : / exp u * (cos u + sin u) < 1).
    { apply (Rmult_lt_reg_l (exp u)); [apply exp_pos|]. rewrite <- Rmult_assoc, Rinv_r by lra. lra. }
    replace (/ exp u * (1 / sqrt 2 * (cos u + sin u))) with (1 / sqrt 2 * (/ exp u * (cos u + sin u))) by ring.
    rewrite <- (Rmult_1_r (1 / sqrt 2)) at 2. apply Rmult_lt_compat_l; assumption.
  - apply exp_increasing. nra.
  - apply exp_increasing. nra.
Qed.

Section Own.
  Variable topk : vec -> nat -> list nat.
  Hypothesis Ht : selects_largest topk.

  (** Nearest neighbours give back points of the sample from their kernel values. *)
  Theorem knn_own_points k d sigma dim sample xs m : k <> Uniform -> offered d -> 0 < sigma -> rect dim sample ->
    Forall (fun x => In x sample) xs -> xs <> [] -> kernel_values k d sigma xs sample m ->
    implicit_knn topk (length sample) m sample 1 = Ok xs.
  Proof.
    intros Hk Ho Hs R Hx Nx V.
    assert (Lm : length m = length xs) by (symmetry; exact (Forall2_len _ _ _ V)).
    assert (Nm : m <> []) by (intros ->; destruct xs; [now elim Nx|discriminate]).
    assert (Rm : rect (length sample) (map (map Ropp) m)).
    { apply Forall_map. clear - V. induction V as [|x row xs m Vr V IH]; constructor; [|exact IH].
      rewrite map_length. symmetry. exact (Forall2_len _ _ _ Vr). }
    assert (Ns : (1 <= length sample)%nat).
    { destruct xs as [|x xs]; [now elim Nx|]. inversion Hx as [|? ? Ix _]; subst. destruct sample; [destruct Ix|cbn; lia]. }
    unfold implicit_knn.
    destruct (knn_mean topk Ht dim (length sample) (map (map Ropp) m) sample 1 R Rm) as (out & E & L & F).
    { destruct m; [now elim Nm|discriminate]. }
    { reflexivity. }
    { lia. }
    rewrite E. f_equal. rewrite map_length in L, F. apply (nth_ext _ _ [] []); [exact (eq_trans L Lm)|].
    intros r Hr. assert (Hm : (r < length m)%nat) by (exact (eq_ind _ (fun z => (r < z)%nat) Hr _ L)). clear Hr. rename Hm into Hr. destruct (F r Hr) as (Ld & idx & N & M).
    assert (Hr' : (r < length xs)%nat) by (exact (eq_ind _ (fun z => (r < z)%nat) Hr _ Lm)).
    set (x := nth r xs []). assert (Ix : In x sample) by (apply (proj1 (Forall_forall _ _) Hx), nth_In; exact Hr').
    assert (Vr : Forall2 (fun y v => kvalue k d sigma x y = Ok (Fin v)) sample (nth r m [])).
    { clear - V Hr'. unfold x. clear x. revert r Hr'. induction V as [|a row xs m Va V IH]; intros [|r] Hr; cbn in Hr |- *; try lia; [exact Va|]. apply IH. lia. }
    assert (Lx : forall y, In y sample -> length y = dim) by (intros y Hy; exact (proj1 (Forall_forall _ _) R y Hy)).
    assert (Val : forall i, (i < length sample)%nat -> nth i (nth r m []) 0 = shape k (dval d x (nth i sample []) / sigma)).
    { intros i Hi. assert (Q : kvalue k d sigma x (nth i sample []) = Ok (Fin (nth i (nth r m []) 0))).
      { clear - Vr Hi. revert i Hi. induction Vr as [|y v ys vs Vy Vr IH]; intros [|i] Hi; cbn in Hi |- *; try lia; [exact Vy|]. apply IH. lia. }
      rewrite kvalue_shape in Q by assumption. now injection Q as <-. }
    destruct N as (_ & N2 & N3 & N4). cbn in N2.
    destruct idx as [|a [|]]; try discriminate N2.
    assert (Er : nth r (map (map Ropp) m) [] = map Ropp (nth r m [])) by exact (map_nth (map Ropp) m [] r).
    unfold mat, vec in *. rewrite Er in N3, N4. rewrite map_length in N3, N4. pose proof (Forall_inv N3) as La; cbv beta in La.
    assert (Lrow : length (nth r m []) = length sample) by (symmetry; exact (Forall2_len _ _ _ Vr)).
    rewrite Lrow in La, N4.
    assert (Ea : nth a sample [] = x).
    { apply (In_nth _ _ []) in Ix as (i & Hi & Ei).
      assert (Q : shape k (dval d x x / sigma) <= shape k (dval d x (nth a sample []) / sigma)).
      { destruct (Nat.eq_dec i a) as [->|Nia]; [rewrite Ei; lra|].
        specialize (N4 a i ltac:(now left) Hi ltac:(intros [J|[]]; congruence)). rewrite !nth_map_opp, !Val in N4 by assumption.
        rewrite Ei in N4. lra. }
      rewrite dval_self in Q. unfold Rdiv in Q at 1. rewrite Rmult_0_l in Q.
      pose proof (dval_nonneg d x (nth a sample [])) as [P|P].
      - assert (T : 0 < dval d x (nth a sample []) / sigma) by (now apply Rdiv_lt_0_compat).
        pose proof (shape_strict k _ Hk T). lra.
      - symmetry. apply (dval_zero d); [|now symmetry]. rewrite (Lx x), (Lx (nth a sample [])); [reflexivity|now apply nth_In|].
        rewrite <- Ei. now apply nth_In. }
    apply (nth_ext _ _ 0 0).
    { rewrite Ld. symmetry. apply Lx. exact Ix. }
    intros j Hj. rewrite Ld in Hj. rewrite (M j Hj). transitivity (nth j (nth a sample []) 0); [exact (mean_one _)|].
    exact (f_equal (fun v => nth j v 0) Ea).
  Qed.

  (** With the linear kernel, the point of largest inner product is taken instead. *)
  Theorem knn_linear_wrong : implicit_knn topk 2 (gram [[1]; [2]] [[1]; [2]]) [[1]; [2]] 1 = Ok [[2]; [2]].
  Proof.
    assert (R1 : rect 1 ([[1]; [2]] : mat)) by (repeat constructor).
    destruct (knn_mean topk Ht 1 2 (map (map Ropp) (gram [[1]; [2]] [[1]; [2]])) [[1]; [2]] 1 R1) as (out & E & L & F);
      [repeat constructor|discriminate|reflexivity|lia|].
    unfold implicit_knn. rewrite E. f_equal. cbn in L. destruct out as [|o1 [|o2 [|]]]; try discriminate L.
    assert (S : forall r, (r < 2)%nat -> nth r [o1; o2] [] = [2]).
    { intros r Hr. destruct (F r Hr) as (Ld & idx & (_ & N2 & N3 & N4) & M). cbn in N2.
      destruct idx as [|a [|]]; try discriminate N2.
      assert (Ea : a = 1%nat).
      { pose proof (Forall_inv N3) as La.
        destruct r as [|[|r]]; [| |lia]; (destruct a as [|[|a]]; [exfalso|reflexivity|cbn in La; lia]);
          specialize (N4 0%nat 1%nat ltac:(now left) ltac:(cbn; lia) ltac:(intros [J|[]]; discriminate J));
          cbn in N4; unfold dot, sum in N4; cbn in N4; lra. }
      subst a. pose proof (M 0%nat ltac:(lia)) as M0. destruct (nth r [o1; o2] []) as [|v [|]]; try discriminate Ld.
      cbn in M0. unfold mean_at, mean, sum in M0. cbn in M0. f_equal. lra. }
    pose proof (S 0%nat ltac:(lia)) as S0. pose proof (S 1%nat ltac:(lia)) as S1. cbn in S0, S1. now subst.
  Qed.
End Own.

(** * Storage *)
Section Storage.
  Context {F : Type}.
  Implicit Types (step : nat -> list (list F) -> result (list (list F))) (h : @heap F).
  Lemma load_store_same h a v : (a < List.length h)%nat -> load (store h a v) a = v.
  Proof.
    intros H. unfold load, store. apply nth_error_nth. rewrite set_nth_error, Nat.eqb_refl.
    now rewrite (proj2 (Nat.ltb_lt _ _) H).
  Qed.
  Lemma load_store_other h a b v : a <> b -> load (store h a v) b = load h b.
  Proof.
    intros N. unfold load, store. revert a b N. induction h as [|x h IH]; intros [|a] [|b] N; cbn; try reflexivity; [now elim N|].
    apply IH. congruence.
  Qed.
  Lemma iterate_heap_value step stop n : forall i a h, (a < List.length h)%nat ->
    let out := iterate_heap step stop i n a h in
    List.length (snd out) = List.length h /\
    (forall b, b <> a -> load (snd out) b = load h b).
  Proof.
    induction n as [|n IH]; intros i a h Ha; cbn zeta; cbn [iterate_heap]; [split; reflexivity|].
    destruct (step i (load h a)) as [x|e]; [|split; reflexivity].
    assert (L : List.length (store h a x) = List.length h) by apply set_nth_length.
    destruct (stop i); cbn [snd].
    - split; [exact L|]. intros b Hb. apply load_store_other. congruence.
    - destruct (IH (S i) a (store h a x) ltac:(now rewrite L)) as [I1 I2]. split; [congruence|].
      intros b Hb. rewrite (I2 b Hb). apply load_store_other. congruence.
  Qed.
  (** The starting point is kept when [castf] copies it. *)
  Theorem iterative_copies step stop n h a r h' : (a < List.length h)%nat ->
    iterative step stop n h (POther a) = (r, h') -> forall b, (b < List.length h)%nat -> load h' b = load h b.
  Proof.
    intros Ha H b Hb. unfold iterative in H. cbn [castf_addr] in H. unfold alloc in H. set (h1 := (h ++ [load h a])%list) in H.
    assert (L : (List.length h < List.length h1)%nat) by (unfold h1; rewrite app_length; cbn; lia).
    destruct (iterate_heap_value step stop n 0 (List.length h) h1 L) as [_ V].
    assert (E : snd (iterate_heap step stop 0 n (List.length h) h1) = h').
    { destruct (iterate_heap step stop 0 n (List.length h) h1) as [[u|e] h2]; now injection H as _ <-. }
    rewrite E in V. rewrite (V b) by lia. unfold load, h1. now rewrite app_nth1.
  Qed.
  (** A float tensor is overwritten by the result. *)
  Theorem iterative_overwrites step stop n h a r h' : (a < List.length h)%nat ->
    iterative step stop n h (PFloatTensor a) = (Ok r, h') -> r = a.
  Proof.
    intros Ha H. unfold iterative in H. cbn [castf_addr] in H.
    destruct (iterate_heap step stop 0 n a h) as [[u|e] h2]; [|discriminate H]. now injection H as <- _.
  Qed.
  Lemma iterative_first step n h a x : (a < List.length h)%nat -> (0 < n)%nat -> step 0%nat (load h a) = Ok x ->
    iterative step (fun _ => true) n h (PFloatTensor a) = (Ok a, store h a x) /\ load (store h a x) a = x.
  Proof.
    intros Ha Hn E. split; [|now apply load_store_same]. unfold iterative. cbn [castf_addr].
    destruct n as [|n]; [lia|]. cbn [iterate_heap]. now rewrite E.
  Qed.
End Storage.

(** The storage holds the value of the iteration. *)
Theorem iterate_heap_result step stop n : forall i a h, (a < List.length h)%nat ->
  match iterate_heap step stop i n a h, iterate step stop i n (load h a) with
  | (Ok _, h'), Ok x => load h' a = x
  | (Err e, _), Err e' => e = e'
  | _, _ => False
  end.
Proof.
  induction n as [|n IH]; intros i a h Ha; cbn [iterate_heap iterate]; [reflexivity|].
  destruct (step i (load h a)) as [x|e]; cbn [bind]; [|reflexivity].
  assert (E : load (store h a x) a = x) by (now apply load_store_same).
  destruct (stop i); [exact E|].
  specialize (IH (S i) a (store h a x)). rewrite E in IH. apply IH. unfold store. now rewrite set_nth_length.
Qed.
Theorem iterative_result step stop n h p r h' : (passed_addr p < List.length h)%nat ->
  iterative step stop n h p = (Ok r, h') -> iterate step stop 0 n (load h (passed_addr p)) = Ok (load h' r).
Proof.
  intros Hp H. unfold iterative in H. destruct (castf_addr h p) as [a h1] eqn:C.
  assert (G : (a < List.length h1)%nat /\ load h1 a = load h (passed_addr p)).
  { destruct p as [b|b|b]; cbn in C, Hp; [injection C as <- <-; auto..|]. unfold alloc in C. injection C as <- <-.
    rewrite app_length. split; [cbn; lia|]. unfold load. rewrite app_nth2, Nat.sub_diag by lia. reflexivity. }
  destruct G as [La Ea]. pose proof (iterate_heap_result step stop n 0%nat a h1 La) as V. rewrite Ea in V.
  destruct (iterate_heap step stop 0 n a h1) as [[u|e] h2]; [|discriminate H]. injection H as <- <-.
  destruct (iterate step stop 0 n (load h (passed_addr p))); [now subst|destruct V].
Qed.

(** * Kernel smoothing is always defined for similarities *)
Section KernelSmoother.
  Variable topk : vec -> nat -> list nat.
  Hypothesis Ht : selects_largest topk.
  Theorem kernel_smoother_defined k d sigma dim domain observations m num : similarity k -> offered d -> 0 < sigma ->
    rect dim observations -> length observations = length domain -> kernel_values k d sigma domain domain m ->
    (1 <= num <= Z.of_nat (length domain))%Z ->
    exists out, smoother topk (length domain) m observations (Some num) = Ok out /\ length out = length domain /\
      Forall (fun o => exists v, o = Some v) out.
  Proof.
    intros Hk Ho Hs R Lo V Hn.
    assert (Lm : length domain = length m) by exact (Forall2_len _ _ _ V).
    assert (Rm : rect (length domain) m).
    { assert (G : forall xs ys, kernel_values k d sigma xs ys m -> rect (length ys) m).
      { intros xs ys W. clear - W. induction W as [|x row xs m Wr W IH]; constructor; [|exact IH]. symmetry. exact (Forall2_len _ _ _ Wr). }
      exact (G _ _ V). }
    destruct (smoother_convex topk Ht dim (length domain) m observations num R Rm (eq_sym Lo) Hn) as (out & E & L & F).
    exists out. split; [exact E|]. split; [exact (eq_trans L (eq_sym Lm))|].
    apply Forall_forall. intros o Io. apply (In_nth _ _ None) in Io as (r & Hr & <-).
    assert (Hm : (r < length m)%nat) by exact (eq_ind _ (fun z => (r < z)%nat) Hr _ L).
    assert (Hd : (r < length domain)%nat) by exact (eq_ind _ (fun z => (r < z)%nat) Hm _ (eq_sym Lm)).
    assert (Vr : Forall2 (fun y v => kvalue k d sigma (nth r domain []) y = Ok (Fin v)) domain (nth r m [])).
    { assert (G : forall xs ys r, kernel_values k d sigma xs ys m -> (r < length xs)%nat ->
        Forall2 (fun y v => kvalue k d sigma (nth r xs []) y = Ok (Fin v)) ys (nth r m [])).
      { clear. intros xs ys r W. revert r. induction W as [|x row xs m Wr W IH]; intros [|r] H; cbn in H |- *; try lia; [exact Wr|]. apply IH. lia. }
      apply G; assumption. }
    destruct (F r Hm) as (w & v & O & _).
    - clear - Vr Hk Ho Hs. induction Vr as [|y v ys vs Vy Vr IH]; constructor; [|exact IH].
      destruct (similarity_measure k d sigma Hk Ho Hs (nth r domain []) y) as (u & U & _ & B & _). rewrite U in Vy. injection Vy as <-. lra.
    - assert (G : forall ys vs, Forall2 (fun y v => kvalue k d sigma (nth r domain []) y = Ok (Fin v)) ys vs -> In (nth r domain []) ys ->
        Exists (fun v => 0 < v) vs).
      { clear - Hk Ho Hs. intros ys vs W. induction W as [|y v ys vs Vy W IH]; intros I; [destruct I|]. destruct I as [->|I].
        - left. destruct (similarity_measure k d sigma Hk Ho Hs (nth r domain []) (nth r domain [])) as (u & _ & _ & _ & U).
          rewrite U in Vy. injection Vy as <-. lra.
        - right. now apply IH. }
      apply (G _ _ Vr). now apply nth_In.
    - now exists v.
  Qed.
End KernelSmoother.

(** From features: the points whose features have the largest products with the image. *)
Theorem explicit_knn_mean topk : selects_largest topk -> forall d phi_image phi sample num, rect d sample ->
  length phi = length sample -> phi_image <> [] -> (1 <= num <= Z.of_nat (length sample))%Z ->
  exists out, explicit_knn topk phi_image phi sample num = Ok out /\ length out = length phi_image /\
  forall r, (r < length phi_image)%nat ->
    exists idx, NoDup idx /\ length idx = Z.to_nat num /\ Forall (fun i => (i < length sample)%nat) idx /\
      (forall a b, In a idx -> (b < length sample)%nat -> ~ In b idx ->
         dot (nth r phi_image []) (nth b phi []) <= dot (nth r phi_image []) (nth a phi [])) /\
      forall j, (j < d)%nat -> nth j (nth r out []) 0 = mean_at sample idx j.
Proof.
  intros T d phi_image phi sample num Hs Hl He Hn. unfold explicit_knn, implicit_knn.
  set (dists := map (map Ropp) (gram phi_image phi)).
  assert (L : length dists = length phi_image) by (unfold dists; now rewrite map_length, gram_length).
  assert (RD : rect (length phi) dists).
  { unfold dists, rect. apply Forall_map. generalize (gram_rect phi_image phi). unfold rect.
    apply Forall_impl. intros r Hr. now rewrite map_length. }
  assert (E : dists <> []) by (intros E; apply He; apply length_zero_iff_nil; rewrite <- L, E; reflexivity).
  destruct (knn_mean topk T d (length phi) dists sample num Hs RD E Hl) as (out & O1 & O2 & O3); [now rewrite Hl|].
  exists out. split; [exact O1|]. split; [now rewrite O2|]. intros r Hr. rewrite <- L in Hr.
  destruct (O3 r Hr) as (_ & idx & (N1 & N2 & N3 & N4) & M). rewrite L in Hr.
  assert (V : forall j, (j < length phi)%nat -> nth j (nth r dists []) 0 = - dot (nth r phi_image []) (nth j phi [])).
  { intros j Hj. replace (nth r dists []) with (map Ropp (nth r (gram phi_image phi) [])) by (symmetry; exact (map_nth (map Ropp) (gram phi_image phi) [] r)).
    rewrite (nth_indep _ 0 (- 0)).
    - rewrite map_nth. f_equal. now apply gram_nth.
    - rewrite map_length. pose proof (gram_rect phi_image phi) as G. unfold rect in G. rewrite Forall_forall in G.
      rewrite (G (nth r (gram phi_image phi) [])); [exact Hj|]. apply nth_In. now rewrite gram_length. }
  assert (W : length (nth r dists []) = length phi).
  { unfold rect in RD. rewrite Forall_forall in RD. apply RD. apply nth_In. now rewrite L. }
  assert (N3' : Forall (fun i => (i < length phi)%nat) idx) by exact (eq_ind _ (fun n => Forall (fun i => (i < n)%nat) idx) N3 _ W).
  clear N3. rename N3' into N3. rewrite <- Hl. exists idx. split; [exact N1|]. split; [exact N2|]. split; [exact N3|]. split; [|exact M].
  intros a b Ha Hb Nb. specialize (N4 a b Ha (eq_ind_r (fun n => (b < n)%nat) Hb W) Nb). rewrite Forall_forall in N3.
  rewrite !V in N4 by auto. lra.
Qed.
