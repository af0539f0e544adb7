(** Closure properties of positive semi-definite functions: proofs. *)
From Verif Require Import Base RVec RVecProofs KernelR KernelRSpec.
Open Scope R_scope.

Section Psd.
  Context {X : Type}.
  Variable dom : X -> Prop.

  (** The quadratic form as a double sum. *)
  Definition qsum (f : X -> X -> R) (l : list (R * X)) : R :=
    sum (map (fun p => sum (map (fun q => fst p * fst q * f (snd p) (snd q)) l)) l).

  Lemma dot_combine {A} (c : vec) (g : A -> R) (s : list A) : length c = length s ->
    dot c (map g s) = sum (map (fun p => fst p * g (snd p)) (combine c s)).
  Proof.
    revert s. induction c as [|a c IH]; intros [|x s] H; try discriminate H; [reflexivity|].
    cbn [map combine]. rewrite dot_cons, sum_cons, IH by (now injection H). reflexivity.
  Qed.

  Lemma quadratic_qsum f s c : length c = length s -> quadratic (matrix_of f s) c = qsum f (combine c s).
  Proof.
    intros H. unfold quadratic, matrix_of, qsum. rewrite map_map, (dot_combine c _ s H).
    apply sum_map_ext. intros [a x] Hp. cbn [fst snd]. rewrite (dot_combine c (f x) s H), <- sum_map_scal.
    apply sum_map_ext. intros [b y] _. cbn [fst snd]. ring.
  Qed.

  Lemma psd_qsum f : psd_on dom f <-> forall l, Forall (fun p => dom (snd p)) l -> 0 <= qsum f l.
  Proof.
    split.
    - intros H l Hl.
      assert (Hd : Forall dom (map snd l)) by (apply Forall_map; exact Hl).
      assert (Hlen : length (map fst l) = length (map snd l)) by now rewrite !map_length.
      specialize (H (map snd l) (map fst l) Hd Hlen). rewrite quadratic_qsum in H by exact Hlen.
      replace (combine (map fst l) (map snd l)) with l in H; [exact H|]. clear.
      induction l as [|[a x] l IH]; cbn; [reflexivity|]. now rewrite <- IH.
    - intros H s c Hs Hc. rewrite quadratic_qsum by exact Hc. apply H.
      apply Forall_forall. intros [a x] Hin. apply in_combine_r in Hin. cbn. exact (proj1 (Forall_forall _ _) Hs _ Hin).
  Qed.

  Lemma qsum_ext f g l : (forall p q, In p l -> In q l -> f (snd p) (snd q) = g (snd p) (snd q)) -> qsum f l = qsum g l.
  Proof.
    intros H. unfold qsum. apply sum_map_ext. intros p Hp. apply sum_map_ext. intros q Hq. now rewrite H.
  Qed.
  Lemma psd_ext f g : (forall x y, dom x -> dom y -> f x y = g x y) -> psd_on dom f -> psd_on dom g.
  Proof.
    rewrite !psd_qsum. intros E H l Hl. rewrite <- (qsum_ext f g); [now apply H|].
    intros p q Hp Hq. pose proof (proj1 (Forall_forall _ _) Hl) as K. apply E; now apply K.
  Qed.

  Lemma psd_one : psd_on dom (fun _ _ => 1).
  Proof.
    apply psd_qsum. intros l _. unfold qsum.
    replace (sum _) with (sum (map fst l) * sum (map fst l)); [nra|].
    rewrite <- sum_map_scal. apply sum_map_ext. intros p _.
    transitivity (fst p * sum (map fst l)); [ring|]. rewrite <- sum_map_scal. apply sum_map_ext. intros q _. ring.
  Qed.

  Lemma psd_plus f g : psd_on dom f -> psd_on dom g -> psd_on dom (fun x y => f x y + g x y).
  Proof.
    rewrite !psd_qsum. intros Hf Hg l Hl.
    replace (qsum _ l) with (qsum f l + qsum g l); [specialize (Hf l Hl); specialize (Hg l Hl); lra|].
    unfold qsum. rewrite <- sum_map_plus. apply sum_map_ext. intros p _. rewrite <- sum_map_plus.
    apply sum_map_ext. intros q _. ring.
  Qed.

  Lemma psd_scale a f : 0 <= a -> psd_on dom f -> psd_on dom (fun x y => a * f x y).
  Proof.
    rewrite !psd_qsum. intros Ha Hf l Hl.
    replace (qsum _ l) with (a * qsum f l); [specialize (Hf l Hl); nra|].
    unfold qsum. rewrite <- sum_map_scal. apply sum_map_ext. intros p _. rewrite <- sum_map_scal.
    apply sum_map_ext. intros q _. ring.
  Qed.

  (** Multiplying by the same function of both arguments. *)
  Lemma psd_conj (g : X -> R) f : psd_on dom f -> psd_on dom (fun x y => g x * g y * f x y).
  Proof.
    rewrite !psd_qsum. intros Hf l Hl. specialize (Hf (map (fun p => (fst p * g (snd p), snd p)) l)).
    replace (qsum (fun x y => g x * g y * f x y) l) with (qsum f (map (fun p => (fst p * g (snd p), snd p)) l)).
    - apply Hf. apply Forall_map. exact Hl.
    - unfold qsum. rewrite map_map. apply sum_map_ext. intros p _. rewrite map_map. apply sum_map_ext. intros q _.
      cbn [fst snd]. ring.
  Qed.

  Lemma psd_sum {A} (f : A -> X -> X -> R) (js : list A) : (forall j, In j js -> psd_on dom (f j)) ->
    psd_on dom (fun x y => sum (map (fun j => f j x y) js)).
  Proof.
    induction js as [|j js IH]; intros H.
    - cbn [map]. apply (psd_ext (fun x y => 0 * 1)); [intros; cbn; ring|]. apply psd_scale; [lra|]. apply psd_one.
    - cbn [map]. apply (psd_ext (fun x y => f j x y + sum (map (fun j => f j x y) js)));
        [intros; now rewrite sum_cons|].
      apply psd_plus; [apply H; now left|]. apply IH. intros i Hi. apply H. now right.
  Qed.

  (** Limits. *)
  Lemma cv_const a : Un_cv (fun _ => a) a.
  Proof. intros e He. exists O. intros n _. unfold R_dist. rewrite Rminus_diag_eq, Rabs_R0 by reflexivity. exact He. Qed.
  Lemma cv_sum {A} (u : nat -> A -> R) (v : A -> R) l : (forall a, In a l -> Un_cv (fun n => u n a) (v a)) ->
    Un_cv (fun n => sum (map (u n) l)) (sum (map v l)).
  Proof.
    induction l as [|a l IH]; intros H; [exact (cv_const 0)|].
    apply (CV_plus (fun n => u n a) (fun n => sum (map (u n) l))); [apply H; now left|].
    apply IH. intros b Hb. apply H. now right.
  Qed.
  Lemma cv_nonneg u v : Un_cv u v -> (forall n, 0 <= u n) -> 0 <= v.
  Proof.
    intros Hc Hp. destruct (Rle_lt_dec 0 v) as [H|H]; [exact H|exfalso].
    destruct (Hc (- v)) as (N & HN); [lra|]. specialize (HN N (le_n N)). specialize (Hp N).
    unfold R_dist in HN. apply Rabs_def2 in HN. lra.
  Qed.

  Lemma psd_limit (f : nat -> X -> X -> R) g : (forall n, psd_on dom (f n)) ->
    (forall x y, dom x -> dom y -> Un_cv (fun n => f n x y) (g x y)) -> psd_on dom g.
  Proof.
    intros Hf Hg. apply psd_qsum. intros l Hl.
    apply (cv_nonneg (fun n => qsum (f n) l)); [|intros n; now apply psd_qsum; [apply Hf|]].
    unfold qsum. apply cv_sum. intros p Hp. apply cv_sum. intros q Hq.
    apply (CV_mult (fun _ => fst p * fst q) (fun n => f n (snd p) (snd q))); [apply cv_const|].
    pose proof (proj1 (Forall_forall _ _) Hl) as K. apply Hg; now apply K.
  Qed.

End Psd.

Lemma psd_map {X Y} (g : X -> Y) (dx : X -> Prop) (dy : Y -> Prop) (f : Y -> Y -> R) : (forall x, dx x -> dy (g x)) ->
  psd_on dy f -> psd_on dx (fun a b => f (g a) (g b)).
Proof.
  intros Hg H s c Hs Hc. specialize (H (map g s) c). unfold matrix_of in H |- *.
  rewrite map_map in H. replace (map (fun a => map (fun b => f (g a) (g b)) s) s) with (map (fun x => map (f (g x)) (map g s)) s).
  - apply H; [|now rewrite map_length]. apply Forall_map. eapply Forall_impl; [|exact Hs]. exact Hg.
  - apply map_ext. intros a. now rewrite map_map.
Qed.
(** It is enough to look at the finite sets of points. *)
Lemma psd_finite {X} (dom : X -> Prop) f : (forall s, Forall dom s -> psd_on (fun x => In x s) f) -> psd_on dom f.
Proof. intros H s c Hs Hc. apply (H s Hs); [|exact Hc]. apply Forall_forall. auto. Qed.

Section Dot.
  Variable dom : vec -> Prop.

  (** Multiplying by the inner product. *)
  Lemma psd_dot d f : (forall x, dom x -> length x = d) -> psd_on dom f -> psd_on dom (fun x y => dot x y * f x y).
  Proof.
    intros Hd Hf. apply (psd_ext dom (fun x y => sum (map (fun j => nth j x 0 * nth j y 0 * f x y) (seq 0 d)))).
    - intros x y Hx Hy. rewrite (dot_as_sum d) by (now apply Hd). rewrite Rmult_comm, <- sum_map_scal.
      apply sum_map_ext. intros j _. ring.
    - apply (psd_sum dom (fun j x y => nth j x 0 * nth j y 0 * f x y)). intros j _.
      exact (psd_conj dom (fun x => nth j x 0) f Hf).
  Qed.
  Lemma psd_dot_pow d k : (forall x, dom x -> length x = d) -> psd_on dom (fun x y => dot x y ^ k).
  Proof.
    intros Hd. induction k as [|k IH]; [exact (psd_one dom)|]. exact (psd_dot d _ Hd IH).
  Qed.

  (** The exponential of the inner product. *)
  Lemma psd_exp_dot d a : 0 <= a -> (forall x, dom x -> length x = d) -> psd_on dom (fun x y => exp (a * dot x y)).
  Proof.
    intros Ha Hd. apply (psd_limit dom (fun n x y => E1 (a * dot x y) n)); [|intros x y _ _; apply E1_cvg].
    intros n. unfold E1. induction n as [|n IH]; cbn [sum_f_R0].
    - apply (psd_ext dom (fun _ _ => 1)); [intros; cbn; field|exact (psd_one dom)].
    - apply psd_plus; [exact IH|].
      apply (psd_ext dom (fun x y => (/ INR (fact (S n)) * a ^ S n) * dot x y ^ S n)).
      + intros x y _ _. rewrite Rpow_mult_distr. ring.
      + apply psd_scale; [|now apply (psd_dot_pow d)].
        apply Rmult_le_pos; [apply Rlt_le, Rinv_0_lt_compat, INR_fact_lt_0|now apply pow_le].
  Qed.
End Dot.
