(** Where iterative pre-images start: proofs. *)
From Verif Require Import Base RVec RVecProofs KernelR KernelRSpec KernelRProofs Method MethodSpec MethodProofs Preimage PreimageSpec PreimageProofs
  StartSpec.
Open Scope R_scope.

Section Start.
  Variable topk : vec -> nat -> list nat.
  Hypothesis Ht : selects_largest topk.

  Lemma knn_one d cols dists observations : rect d observations -> rect cols dists -> dists <> [] -> observations <> [] ->
    cols = length observations ->
    exists out, knn topk cols dists observations 1 = Ok out /\ length out = length dists /\
    forall r, (r < length dists)%nat -> exists a, (a < length observations)%nat /\ nth r out [] = nth a observations [] /\
      forall b, (b < length observations)%nat -> nth a (nth r dists []) 0 <= nth b (nth r dists []) 0.
  Proof.
    intros Ro Rd Nd No Hc.
    assert (H1 : (1 <= 1 <= Z.of_nat cols)%Z) by (subst cols; destruct observations; [now elim No|cbn [length]; lia]).
    destruct (knn_mean topk Ht d cols dists observations 1 Ro Rd Nd Hc H1) as (out & E & L & F).
    exists out. split; [exact E|]. split; [exact L|]. intros r Hr. destruct (F r Hr) as (Ld & idx & N & M).
    destruct N as (_ & N2 & N3 & N4). cbn in N2. destruct idx as [|a [|]]; try discriminate N2.
    assert (Lr : length (nth r dists []) = length observations).
    { rewrite <- Hc. apply (proj1 (Forall_forall _ _) Rd). now apply nth_In. }
    pose proof (Forall_inv N3) as La; cbv beta in La. unfold mat, vec in *. rewrite Lr in La, N4.
    exists a. split; [exact La|]. split.
    - apply (nth_ext _ _ 0 0).
      + rewrite Ld. symmetry. apply (proj1 (Forall_forall _ _) Ro). now apply nth_In.
      + intros j Hj. rewrite Ld in Hj. rewrite (M j Hj). exact (mean_one _).
    - intros b Hb. destruct (Nat.eq_dec b a) as [->|Nb]; [lra|].
      apply (N4 a b); [now left|exact Hb|]. intros [J|[]]. congruence.
  Qed.

  Lemma nth_neg m row i : (i < length row)%nat -> nth i (map (fun v => - v + m) row) 0 = - nth i row 0 + m.
  Proof.
    intros Hi. rewrite (nth_indep _ 0 (- 0 + m)) by (now rewrite map_length). exact (map_nth (fun v => - v + m) row 0 i).
  Qed.
  Lemma rect_map_map c (f : R -> R) (k : mat) : rect c k -> rect c (map (map f) k).
  Proof. intros H. apply Forall_map. eapply Forall_impl; [|exact H]. intros row E. cbv beta. now rewrite map_length. Qed.
  Lemma nth_rows (f : R -> R) (k : mat) r : nth r (map (map f) k) [] = map f (nth r k []).
  Proof. exact (map_nth (map f) k [] r). Qed.

  Section Run.
    Variables (step : nat -> mat -> result mat) (stop : nat -> bool) (sample : mat) (d : nat).
    Hypothesis Rs : rect d sample.
    Hypothesis Ns : sample <> [].

    Lemma knn_start (f : R -> R) (values : mat) : (forall a b, f a <= f b -> b <= a) -> rect (length sample) values -> values <> [] ->
      exists x0, knn topk (length sample) (map (map f) values) sample 1 = Ok x0 /\ starts_at sample values x0.
    Proof.
      intros Hf Rv Nv. destruct (knn_one d (length sample) (map (map f) values) sample) as (x0 & E & L & F); auto.
      { now apply rect_map_map. } { destruct values; [now elim Nv|discriminate]. }
      rewrite map_length in L, F. exists x0. split; [exact E|]. split; [exact L|]. intros r Hr. destruct (F r Hr) as (a & Ha & Ea & Va).
      exists a. split; [exact Ha|]. split; [exact Ea|]. intros b Hb. specialize (Va b Hb).
      assert (Lr : length (nth r values []) = length sample) by (apply (proj1 (Forall_forall _ _) Rv); now apply nth_In).
      apply Hf. pose proof (nth_rows f values r) as NR. unfold mat, vec in *. rewrite NR in Va.
      rewrite !(nth_indep (map f _) 0 (f 0)) in Va by (rewrite map_length, Lr; assumption).
      rewrite !(map_nth f) in Va. exact Va.
    Qed.
    Theorem start_k level light k_image num_iter : rect (length sample) k_image -> k_image <> [] -> (0 < num_iter)%Z ->
      exists x0, starts_at sample k_image x0 /\
        fst (preimage_k topk step stop sample level light (length sample) k_image num_iter) = iterate step stop 0 (Z.to_nat num_iter) x0.
    Proof.
      intros Rk Nk Hn. unfold neg_dists.
      destruct (knn_start (fun v => - v + lmax (concat k_image)) k_image) as (x0 & E & S0); auto.
      { intros a b Hab. lra. }
      exists x0. split; [exact S0|]. unfold preimage_k. rewrite Nat.eqb_refl. cbn [negb]. rewrite (proj2 (Z.leb_gt _ _)) by lia.
      unfold neg_dists. cbv zeta. rewrite E. cbn [bind]. destruct k_image; [now elim Nk|]. destruct (iterate _ _ _ _ _); reflexivity.
    Qed.
    Theorem start_phi level light phi phi_image num_iter : length phi = length sample -> phi_image <> [] -> (0 < num_iter)%Z ->
      exists x0, starts_at sample (gram phi_image phi) x0 /\
        fst (preimage_phi topk step stop sample phi (length sample) level light (length sample) phi_image num_iter) =
        iterate step stop 0 (Z.to_nat num_iter) x0.
    Proof.
      intros Lp Ni Hn. destruct (knn_start Ropp (gram phi_image phi)) as (x0 & E & S0).
      { intros a b Hab. lra. }
      { rewrite <- Lp. apply Forall_map. apply Forall_forall. intros x _. apply map_length. }
      { destruct phi_image; [now elim Ni|discriminate]. }
      exists x0. split; [exact S0|]. unfold preimage_phi. rewrite Nat.eqb_refl. cbn [negb]. rewrite (proj2 (Z.leb_gt _ _)) by lia.
      rewrite E. cbn [bind]. destruct (iterate _ _ _ _ _); reflexivity.
    Qed.
  End Run.

  (** Values of points of the sample: the start is already the solution. *)
  Lemma start_own k dist sigma dim sample xs m x0 : k <> Uniform -> offered dist -> 0 < sigma -> rect dim sample ->
    Forall (fun x => In x sample) xs -> kernel_values k dist sigma xs sample m -> starts_at sample m x0 -> x0 = xs.
  Proof.
    intros Hk Ho Hs Rs Hx V [L F].
    assert (Lm : length m = length xs) by (symmetry; exact (Forall2_len _ _ _ V)).
    apply (nth_ext _ _ [] []); [exact (eq_trans L Lm)|]. intros r Hr.
    assert (Hm : (r < length m)%nat) by (exact (eq_ind _ (fun z => (r < z)%nat) Hr _ L)).
    assert (Hr' : (r < length xs)%nat) by (exact (eq_ind _ (fun z => (r < z)%nat) Hm _ Lm)).
    destruct (F r Hm) as (a & Ha & Ea & Va). refine (eq_trans Ea _). clear Ea.
    set (x := nth r xs []). assert (Ix : In x sample) by (apply (proj1 (Forall_forall _ _) Hx), nth_In; exact Hr').
    assert (Vr : Forall2 (fun y v => kvalue k dist sigma x y = Ok (Fin v)) sample (nth r m [])).
    { clear - V Hr'. unfold x. clear x. revert r Hr'. induction V as [|c row xs m Vc V IH]; intros [|r] Hr; cbn in Hr |- *; try lia; [exact Vc|]. apply IH. lia. }
    assert (Lx : forall y, In y sample -> length y = dim) by (intros y Hy; exact (proj1 (Forall_forall _ _) Rs y Hy)).
    assert (Val : forall i, (i < length sample)%nat -> nth i (nth r m []) 0 = shape k (dval dist x (nth i sample []) / sigma)).
    { intros i Hi. assert (Q : kvalue k dist sigma x (nth i sample []) = Ok (Fin (nth i (nth r m []) 0))).
      { clear - Vr Hi. revert i Hi. induction Vr as [|y v ys vs Vy Vr IH]; intros [|i] Hi; cbn in Hi |- *; try lia; [exact Vy|]. apply IH. lia. }
      rewrite kvalue_shape in Q by assumption. now injection Q as <-. }
    apply (In_nth _ _ []) in Ix as Ii. destruct Ii as (i & Hi & Ei).
    specialize (Va i Hi). unfold mat, vec in *. rewrite (Val i Hi), (Val a Ha), Ei in Va.
    rewrite dval_self in Va. unfold Rdiv in Va at 1. rewrite Rmult_0_l in Va.
    pose proof (dval_nonneg dist x (nth a sample [])) as [P|P].
    - assert (T : 0 < dval dist x (nth a sample []) / sigma) by (now apply Rdiv_lt_0_compat).
      pose proof (shape_strict k _ Hk T). lra.
    - symmetry. apply (dval_zero dist); [|now symmetry]. refine (eq_trans (Lx x Ix) (eq_sym (Lx (nth a sample []) _))). now apply nth_In.
  Qed.

  Lemma iterate_fixed step stop n : forall i x, (forall j, step j x = Ok x) -> iterate step stop i n x = Ok x.
  Proof. induction n as [|n IH]; intros i x H; [reflexivity|]. cbn [iterate]. rewrite H. cbn [bind]. destruct (stop i); auto. Qed.

  Theorem own_k step stop k dist sigma dim sample xs m level light num_iter : k <> Uniform -> offered dist -> 0 < sigma -> rect dim sample ->
    Forall (fun x => In x sample) xs -> xs <> [] -> kernel_values k dist sigma xs sample m -> (0 < num_iter)%Z ->
    fst (preimage_k topk step stop sample level light (length sample) m num_iter) = iterate step stop 0 (Z.to_nat num_iter) xs.
  Proof.
    intros Hk Ho Hs Rs Hx Nx V Hn.
    assert (Ns : sample <> []).
    { intros ->. destruct xs as [|x xs]; [now elim Nx|]. exact (Forall_inv Hx). }
    assert (Nm : m <> []) by (intros ->; destruct xs; [now elim Nx|]; apply Forall2_len in V; discriminate V).
    assert (Rm : rect (length sample) m).
    { clear - V. induction V as [|x row xs m Vr V IH]; constructor; [|exact IH]. symmetry. exact (Forall2_len _ _ _ Vr). }
    destruct (start_k step stop sample dim Rs Ns level light m num_iter Rm Nm Hn) as (x0 & S0 & E).
    rewrite E. now rewrite (start_own k dist sigma dim sample xs m x0).
  Qed.
End Start.
