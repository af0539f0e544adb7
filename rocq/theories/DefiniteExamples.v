(** Kernel matrices of distinct points: proofs for the kernels, examples. *)
From Verif Require Import Base RVec RVecProofs KernelR KernelRSpec Psd KernelRProofs Multiplier PsdKernelProofs Poly PolyProofs.
From Verif Require Import DefiniteSpec DefiniteProofs DefiniteKernelProofs DefiniteSystemProofs.
Open Scope R_scope.

Lemma zipw_zero_eq (x y : vec) : length x = length y -> Forall (fun a => a = 0) (zipw (fun a b => (a - b) * (a - b)) x y) -> x = y.
Proof.
  revert y. induction x as [|a x IH]; intros [|b y] H Z; try discriminate H; [reflexivity|]. cbn [zipw] in Z.
  assert (E : a = b). { pose proof (Forall_inv Z) as E. cbn in E. destruct (Rmult_integral _ _ E); lra. }
  rewrite E, (IH y); [reflexivity|now injection H|exact (Forall_inv_tail Z)].
Qed.
Lemma square_dist_separated d (x y : vec) : length x = d -> length y = d -> x <> y -> 0 < square_dist x y.
Proof.
  intros Hx Hy N. destruct (square_dist_nonneg x y) as [P|Z]; [exact P|exfalso]. apply N.
  apply zipw_zero_eq; [congruence|]. apply sum_zero_nonneg; [|exact (eq_sym Z)]. clear. revert y.
  induction x as [|a x IH]; intros [|b y]; cbn; constructor; [apply Rle_0_sqr|apply IH].
Qed.
Lemma square_dist_symmetric x y : square_dist x y = square_dist y x.
Proof.
  unfold square_dist. revert y. induction x as [|a x IH]; intros [|b y]; try reflexivity. cbn [zipw]. rewrite !sum_cons, IH. ring.
Qed.
Lemma square_dist_self x : square_dist x x = 0.
Proof. unfold square_dist. induction x as [|a x IH]; [reflexivity|]. cbn [zipw]. rewrite sum_cons, IH. ring. Qed.

Lemma absolute_dist_nonneg x y : 0 <= absolute_dist x y.
Proof.
  revert y. unfold absolute_dist. induction x as [|a x IH]; intros [|b y]; cbn [zipw]; try (cbn; lra).
  rewrite sum_cons. specialize (IH y). pose proof (Rabs_pos (a - b)). lra.
Qed.
Lemma absolute_dist_separated d (x y : vec) : length x = d -> length y = d -> x <> y -> 0 < absolute_dist x y.
Proof.
  intros Hx Hy N. destruct (absolute_dist_nonneg x y) as [P|Z]; [exact P|exfalso]. apply N. clear N.
  assert (L : length x = length y) by congruence. clear Hx Hy. revert y Z L.
  unfold absolute_dist. induction x as [|a x IH]; intros [|b y] Z L; try discriminate L; [reflexivity|]. cbn [zipw] in Z. rewrite sum_cons in Z.
  pose proof (Rabs_pos (a - b)) as P. pose proof (absolute_dist_nonneg x y) as Q. unfold absolute_dist in Q.
  assert (A : Rabs (a - b) = 0) by lra. assert (E : a = b). { destruct (Req_dec (a - b) 0); [lra|]. now apply Rabs_no_R0 in H. }
  rewrite E, (IH y); [reflexivity|lra|now injection L].
Qed.
Lemma absolute_dist_symmetric x y : absolute_dist x y = absolute_dist y x.
Proof.
  unfold absolute_dist. revert y. induction x as [|a x IH]; intros [|b y]; try reflexivity. cbn [zipw]. rewrite !sum_cons, IH.
  now rewrite Rabs_minus_sym.
Qed.
Lemma absolute_dist_self x : absolute_dist x x = 0.
Proof. unfold absolute_dist. induction x as [|a x IH]; [reflexivity|]. cbn [zipw]. rewrite sum_cons, IH. rewrite Rminus_diag_eq, Rabs_R0 by reflexivity. ring. Qed.

(** From functions to matrices. *)
Lemma strict_matrices {X} (dom : X -> Prop) f : symmetric dom f -> psd_on dom f -> strict dom f -> forall s, Forall dom s ->
  (definite (matrix_of f s) <-> NoDup s) /\
  (NoDup s -> forall targets, length targets = length s ->
     exists c, reproduces (matrix_of f s) c targets /\ forall c', reproduces (matrix_of f s) c' targets -> c' = c).
Proof.
  intros Sf Hf H s Hs.
  assert (D : NoDup s -> definite (matrix_of f s)).
  { intros ND. apply (matrix_definite dom f s Hs Hf). intros l El Z p Hp.
    apply (H l); [|now rewrite El|exact Z|exact Hp]. apply Forall_map. now rewrite El. }
  split; [split; [apply definite_distinct|exact D]|].
  intros ND targets Ht. destruct (definite_solve dom f s targets Sf Hf Hs ND) as (c & Hc).
  - intros l Hin NDl Z p Hp. apply (H l); [|exact NDl|exact Z|exact Hp]. apply Forall_map. apply Forall_forall. intros x Hx.
    apply (proj1 (Forall_forall _ _) Hs). now apply Hin.
  - exact Ht.
  - exists c. split; [exact Hc|]. intros c' Hc'. exact (definite_unique _ _ _ _ (D ND) Hc' Hc).
Qed.

Lemma exponential_matrices (dom : vec -> Prop) (u : vec -> vec -> R) (t : R) : exponentials dom u -> symmetric dom u ->
  (forall x, dom x -> u x x = 0) -> (forall x y, dom x -> dom y -> x <> y -> 0 < u x y) -> 0 < t ->
  symmetric dom (fun x y => exp (- (t * u x y))) /\ psd_on dom (fun x y => exp (- (t * u x y))) /\ strict dom (fun x y => exp (- (t * u x y))).
Proof.
  intros He Su Hz Sep Ht. split; [intros x y Hx Hy; now rewrite Su|]. split.
  - apply mult_psd. apply (proj2 He). lra.
  - now apply exponential_strict.
Qed.

Section Kernels.
  Variable dim : nat.
  Let dom (x : vec) : Prop := length x = dim.

  Lemma root_separated x y : dom x -> dom y -> x <> y -> 0 < sqrt (square_dist x y).
  Proof. intros Hx Hy N. apply sqrt_lt_R0. now apply (square_dist_separated dim). Qed.

  Theorem telling_kernels k d sigma : telling k d -> 0 < sigma ->
    exists f, (forall x y, kvalue k d sigma x y = Ok (Fin (f x y))) /\ symmetric dom f /\ psd_on dom f /\ strict dom f.
  Proof.
    intros T Hs. assert (Hi : 0 < / sigma) by now apply Rinv_0_lt_compat.
    assert (Hq : 0 < sqrt (1 / 2)) by (apply sqrt_lt_R0; lra).
    assert (Sq : symmetric dom square_dist) by (intros x y _ _; apply square_dist_symmetric).
    destruct k as [| | | | | | | |[|]]; destruct d; try contradiction T.
    - (* logistic *)
      exists (fun x y => exp (- (1 * log_logistic square_dist (/ Rabs sigma) x y))). split.
      { intros x y. unfold kvalue. rewrite euclidean_sigma by lra. cbn [bind profile]. rewrite log_logistic_value. reflexivity. }
      assert (Ha : 0 < / Rabs sigma) by (rewrite Rabs_right by lra; exact Hi).
      apply exponential_matrices.
      + apply log_logistic_exponentials; [apply square_dist_exponentials|exact Ha].
      + intros x y _ _. unfold log_logistic. now rewrite (square_dist_symmetric x y).
      + intros x _. apply log_logistic_zero, square_dist_self.
      + intros x y Hx Hy N. apply log_logistic_gt; [exact Ha|]. now apply (square_dist_separated dim).
      + lra.
    - (* Gaussian *)
      exists (fun x y => exp (- (/ (2 * (sigma * sigma)) * square_dist x y))). split.
      { intros x y. change (kvalue (Exponential true) Euclidean sigma x y) with (rbf sigma x y). rewrite rbf_is by lra.
        unfold rbf_value. do 3 f_equal. field. lra. }
      apply exponential_matrices.
      + apply square_dist_exponentials.
      + exact Sq.
      + intros x _. apply square_dist_self.
      + intros x y. apply square_dist_separated.
      + apply Rinv_0_lt_compat. nra.
    - (* Laplacian *)
      exists (fun x y => exp (- (sqrt (1 / 2) * / Rabs sigma * sqrt (square_dist x y)))). split.
      { intros x y. unfold kvalue. rewrite euclidean_sigma by lra. cbn [bind profile]. do 3 f_equal. ring. }
      apply (exponential_matrices dom (fun x y => sqrt (square_dist x y))).
      + apply root_exponentials. apply square_dist_exponentials.
      + intros x y _ _. now rewrite square_dist_symmetric.
      + intros x _. now rewrite square_dist_self, sqrt_0.
      + exact root_separated.
      + rewrite Rabs_right by lra. now apply Rmult_lt_0_compat.
    - (* Manhattan *)
      exists (fun x y => exp (- (sqrt (1 / 2) * / sigma * absolute_dist x y))). split.
      { intros x y. unfold kvalue. cbn [dist_sigma dist bind]. rewrite over_value by lra. cbn [profile]. do 3 f_equal.
        unfold absolute_dist, Rdiv. ring. }
      apply (exponential_matrices dom absolute_dist).
      + apply absolute_dist_exponentials.
      + intros x y _ _. apply absolute_dist_symmetric.
      + intros x _. apply absolute_dist_self.
      + intros x y. apply absolute_dist_separated.
      + now apply Rmult_lt_0_compat.
  Qed.

  Theorem telling_matrices k d sigma : telling k d -> 0 < sigma ->
    exists f, (forall x y, kvalue k d sigma x y = Ok (Fin (f x y))) /\ forall s, Forall dom s ->
      (definite (matrix_of f s) <-> NoDup s) /\
      (NoDup s -> forall targets, length targets = length s ->
         exists c, reproduces (matrix_of f s) c targets /\ forall c', reproduces (matrix_of f s) c' targets -> c' = c).
  Proof.
    intros T Hs. destruct (telling_kernels k d sigma T Hs) as (f & E & Sf & Hf & H). exists f. split; [exact E|].
    intros s Hd. now apply (strict_matrices dom f).
  Qed.

  Theorem polynomial_matrices degree beta (s : mat) : 0 < beta -> rect dim s -> (length s <= S degree)%nat ->
    (definite (poly_implicit degree beta s s) <-> NoDup s) /\
    (NoDup s -> forall targets, length targets = length s ->
       exists c, reproduces (poly_implicit degree beta s s) c targets /\
                 forall c', reproduces (poly_implicit degree beta s s) c' targets -> c' = c).
  Proof.
    intros Hb Hs Hn. change (poly_implicit degree beta s s) with (matrix_of (poly degree beta) s).
    assert (Sd : symmetric dom dot) by (intros x y _ _; apply dot_comm).
    assert (Pd : psd_on dom dot).
    { apply (psd_ext dom (fun x y => dot x y * 1)); [intros; ring|]. apply (psd_dot dom dim); [auto|apply psd_one]. }
    assert (Sp : symmetric dom (poly degree beta)) by (intros x y _ _; unfold poly; now rewrite dot_comm).
    assert (Pp : psd_on dom (poly degree beta)) by (apply poly_psd; lra).
    assert (St : forall l, over_dom dom l -> NoDup (map snd l) -> (length l <= S degree)%nat -> qsum (poly degree beta) l = 0 -> forall p, In p l -> fst p = 0).
    { intros l Hl ND Len. apply (polynomial_strict dom dot Sd Pd); try assumption.
      intros x y Hx Hy N. pose proof (square_dist_separated dim x y Hx Hy N) as P.
      rewrite square_dist_expand in P by (unfold dom in *; congruence). lra. }
    assert (D : NoDup s -> definite (matrix_of (poly degree beta) s)).
    { intros ND. apply (matrix_definite dom _ s Hs Pp). intros l El Z p Hp.
      apply (St l); [|now rewrite El|rewrite <- (map_length snd), El; exact Hn|exact Z|exact Hp]. apply Forall_map. now rewrite El. }
    split; [split; [apply definite_distinct|exact D]|].
    intros ND targets Ht. destruct (definite_solve dom (poly degree beta) s targets Sp Pp Hs ND) as (c & Hc).
    - intros l Hin NDl Z p Hp. apply (St l); [|exact NDl| |exact Z|exact Hp].
      + apply Forall_map. apply Forall_forall. intros x Hx. apply (proj1 (Forall_forall _ _) Hs). now apply Hin.
      + rewrite <- (map_length snd). eapply Nat.le_trans; [|exact Hn]. now apply NoDup_incl_length.
    - exact Ht.
    - exists c. split; [exact Hc|]. intros c' Hc'. exact (definite_unique _ _ _ _ (D ND) Hc' Hc).
  Qed.
End Kernels.

(** One point more, and the polynomial kernel cannot do it any more. *)
Theorem polynomial_limit : ~ definite (poly_implicit 1 1 [[0]; [1]; [2]] [[0]; [1]; [2]]) /\ NoDup [[0]; [1]; [2]].
Proof.
  split.
  - intros D. specialize (D [1; -2; 1] eq_refl (ex_intro _ 1 (conj (or_introl eq_refl) R1_neq_R0))).
    unfold quadratic, poly_implicit, poly, dot in D. cbn in D. lra.
  - assert (N : forall a b : R, a <> b -> [a] <> [b]) by (intros a b H E; injection E; exact H).
    repeat constructor; cbn; intros H; repeat (destruct H as [H|H]; [apply N in H; [exact H|lra]|]); exact H.
Qed.

Lemma two_points : NoDup [[0; 0]; [3; 4]] /\ Forall (fun x : vec => length x = 2%nat) [[0; 0]; [3; 4]].
Proof.
  split; [|repeat constructor]. constructor; [|repeat constructor; intros []].
  intros [E|[]]. injection E. intros. lra.
Qed.
