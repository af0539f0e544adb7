(** Elementary facts on vectors and matrices of real numbers. *)
From Verif Require Import RVec.

Lemma EPS_pos : 0 < EPS.
Proof. unfold EPS. apply Rinv_0_lt_compat, pow_lt. lra. Qed.

(** ** zipw *)
Section Zip.
  Context {A B C : Type}.
  Lemma zipw_length (f : A -> B -> C) a b : length a = length b -> length (zipw f a b) = length a.
  Proof.
    revert b. induction a as [|x a IH]; intros [|y b] H; cbn in *; try reflexivity; try discriminate.
    f_equal. apply IH. now injection H.
  Qed.
  Lemma zipw_length_min (f : A -> B -> C) a b : length (zipw f a b) = Nat.min (length a) (length b).
  Proof. revert b. induction a as [|x a IH]; intros [|y b]; cbn; auto. Qed.
  Lemma zipw_nth (f : A -> B -> C) a b i da db dc : (i < length a)%nat -> (i < length b)%nat ->
    nth i (zipw f a b) dc = f (nth i a da) (nth i b db).
  Proof.
    revert b i. induction a as [|x a IH]; intros [|y b] [|i] Ha Hb; cbn in *; try lia; auto.
    apply IH; lia.
  Qed.
  Lemma zipw_map_r {B'} (f : A -> B -> C) (g : B' -> B) a b :
    zipw f a (map g b) = zipw (fun x y => f x (g y)) a b.
  Proof. revert b. induction a as [|x a IH]; intros [|y b]; cbn; auto. now rewrite IH. Qed.
  Lemma zipw_map_l {A'} (f : A -> B -> C) (g : A' -> A) a b :
    zipw f (map g a) b = zipw (fun x y => f (g x) y) a b.
  Proof. revert b. induction a as [|x a IH]; intros [|y b]; cbn; auto. now rewrite IH. Qed.
  Lemma map_zipw {C'} (g : C -> C') (f : A -> B -> C) a b :
    map g (zipw f a b) = zipw (fun x y => g (f x y)) a b.
  Proof. revert b. induction a as [|x a IH]; intros [|y b]; cbn; auto. now rewrite IH. Qed.
  Lemma zipw_ext (f g : A -> B -> C) a b : (forall x y, f x y = g x y) -> zipw f a b = zipw g a b.
  Proof. intros H. revert b. induction a as [|x a IH]; intros [|y b]; cbn; auto. now rewrite H, IH. Qed.
  Lemma zipw_same (f : A -> A -> C) a : zipw f a a = map (fun x => f x x) a.
  Proof. induction a as [|x a IH]; cbn; auto. now rewrite IH. Qed.
  Lemma zipw_const_r (f : A -> B -> C) a b y : Forall (fun z => z = y) b -> length a = length b ->
    zipw f a b = map (fun x => f x y) a.
  Proof.
    intros H. revert a. induction H as [|z b -> Hb IH]; intros [|x a] E; cbn in *; try discriminate; auto.
    rewrite IH; auto.
  Qed.
End Zip.

Lemma zipw_comm {A C} (f : A -> A -> C) a b : (forall x y, f x y = f y x) -> zipw f a b = zipw f b a.
Proof. intros H. revert b. induction a as [|x a IH]; intros [|y b]; cbn; auto. now rewrite H, IH. Qed.

(** ** Sums *)
Lemma sum_cons a l : sum (a :: l) = a + sum l.
Proof. reflexivity. Qed.
Lemma sum_app l m : sum (l ++ m) = sum l + sum m.
Proof. induction l as [|a l IH]; cbn [app]; rewrite ?sum_cons; [cbn; ring|]. rewrite IH. ring. Qed.
Lemma sum_map_plus {A} (f g : A -> R) l : sum (map (fun x => f x + g x) l) = sum (map f l) + sum (map g l).
Proof. induction l as [|a l IH]; cbn [map]; rewrite ?sum_cons; [cbn; ring|]. rewrite IH. ring. Qed.
Lemma sum_map_opp {A} (f : A -> R) l : sum (map (fun x => - f x) l) = - sum (map f l).
Proof. induction l as [|a l IH]; cbn [map]; rewrite ?sum_cons; [cbn; ring|]. rewrite IH. ring. Qed.
Lemma sum_map_minus {A} (f g : A -> R) l : sum (map (fun x => f x - g x) l) = sum (map f l) - sum (map g l).
Proof. induction l as [|a l IH]; cbn [map]; rewrite ?sum_cons; [cbn; ring|]. rewrite IH. ring. Qed.
Lemma sum_map_scal {A} c (f : A -> R) l : sum (map (fun x => c * f x) l) = c * sum (map f l).
Proof. induction l as [|a l IH]; cbn [map]; rewrite ?sum_cons; [cbn; ring|]. rewrite IH. ring. Qed.
Lemma sum_map_const {A} c (l : list A) : sum (map (fun _ => c) l) = INR (length l) * c.
Proof.
  induction l as [|a l IH]; [cbn; ring|]. cbn [map length]. rewrite sum_cons, IH, S_INR. ring.
Qed.
Lemma sum_map_ext {A} (f g : A -> R) l : (forall x, In x l -> f x = g x) -> sum (map f l) = sum (map g l).
Proof. intros H. f_equal. now apply map_ext_in. Qed.
Lemma sum_nonneg l : Forall (fun x => 0 <= x) l -> 0 <= sum l.
Proof. induction 1 as [|a l Ha Hl IH]; rewrite ?sum_cons; cbn in *; lra. Qed.
Lemma sum_map_nonneg {A} (f : A -> R) l : (forall x, In x l -> 0 <= f x) -> 0 <= sum (map f l).
Proof. intros H. apply sum_nonneg, Forall_map, Forall_forall. exact H. Qed.
Lemma sum_zero_nonneg l : Forall (fun x => 0 <= x) l -> sum l = 0 -> Forall (fun x => x = 0) l.
Proof.
  induction 1 as [|a l Ha Hl IH]; intros H; constructor; rewrite ?sum_cons in H.
  - pose proof (sum_nonneg l Hl). lra.
  - apply IH. pose proof (sum_nonneg l Hl). lra.
Qed.
Lemma sum_le_map {A} (f g : A -> R) l : (forall x, In x l -> f x <= g x) -> sum (map f l) <= sum (map g l).
Proof.
  induction l as [|a l IH]; intros H; cbn [map]; rewrite ?sum_cons; [lra|].
  pose proof (H a (or_introl eq_refl)). pose proof (IH (fun x Hx => H x (or_intror Hx))). lra.
Qed.
Lemma sum_exchange {A B} (f : A -> B -> R) la lb :
  sum (map (fun x => sum (map (f x) lb)) la) = sum (map (fun y => sum (map (fun x => f x y) la)) lb).
Proof.
  induction la as [|x la IH]; cbn [map]; rewrite ?sum_cons.
  - cbn. rewrite sum_map_const. ring.
  - rewrite IH, <- sum_map_plus. apply sum_map_ext. intros y _. now rewrite ?sum_cons.
Qed.

Lemma INR_length_pos {A} (l : list A) : l <> [] -> 0 < INR (length l).
Proof. destruct l; [congruence|]. intros _. cbn [length]. rewrite S_INR. pose proof (pos_INR (length l)). lra. Qed.

Lemma mean_sum l : l <> [] -> INR (length l) * mean l = sum l.
Proof. intros H. apply INR_length_pos in H. unfold mean. field. lra. Qed.

Lemma mean_map {A} (f : A -> R) l : mean (map f l) = sum (map f l) / INR (length l).
Proof. unfold mean. now rewrite map_length. Qed.
Lemma mean_map_minus_const l c : l <> [] -> mean (map (fun x => x - c) l) = mean l - c.
Proof.
  intros H. rewrite mean_map, (sum_map_minus (fun x => x) (fun _ => c)), map_id, sum_map_const.
  unfold mean. apply INR_length_pos in H. field. lra.
Qed.
Lemma mean_map_scal l c : mean (map (fun x => c * x) l) = c * mean l.
Proof. rewrite mean_map, (sum_map_scal c (fun x => x)), map_id. unfold mean, Rdiv. ring. Qed.
Lemma mean_map_div l c : mean (map (fun x => x / c) l) = mean l / c.
Proof.
  transitivity (mean (map (fun x => / c * x) l)); [f_equal; apply map_ext; intros; unfold Rdiv; ring|].
  rewrite mean_map_scal. unfold Rdiv. ring.
Qed.

(** ** Minimum and maximum *)
Lemma lmin_le l x : In x l -> lmin l <= x.
Proof.
  destruct l as [|a l]; [easy|]. cbn [lmin]. revert x.
  induction l as [|b l IH]; intros x H; cbn [fold_right] in *.
  - destruct H as [->|[]]. lra.
  - destruct H as [->|[->|H]].
    + eapply Rle_trans; [apply Rmin_r|]. apply IH. now left.
    + apply Rmin_l.
    + eapply Rle_trans; [apply Rmin_r|]. apply IH. now right.
Qed.
Lemma lmin_In l : l <> [] -> In (lmin l) l.
Proof.
  destruct l as [|a l]; [congruence|]. intros _. cbn [lmin].
  induction l as [|b l IH]; cbn [fold_right]; [now left|].
  apply Rmin_case; [right; now left|]. destruct IH as [IH|IH]; [left; exact IH|right; now right].
Qed.
Lemma lmax_ge l x : In x l -> x <= lmax l.
Proof.
  destruct l as [|a l]; [easy|]. cbn [lmax]. revert x.
  induction l as [|b l IH]; intros x H; cbn [fold_right] in *.
  - destruct H as [->|[]]. lra.
  - destruct H as [->|[->|H]].
    + eapply Rle_trans; [|apply Rmax_r]. apply IH. now left.
    + apply Rmax_l.
    + eapply Rle_trans; [|apply Rmax_r]. apply IH. now right.
Qed.
Lemma lmax_In l : l <> [] -> In (lmax l) l.
Proof.
  destruct l as [|a l]; [congruence|]. intros _. cbn [lmax].
  induction l as [|b l IH]; cbn [fold_right]; [now left|].
  apply Rmax_case; [right; now left|]. destruct IH as [IH|IH]; [left; exact IH|right; now right].
Qed.
Lemma lmin_unique l m : In m l -> (forall x, In x l -> m <= x) -> lmin l = m.
Proof.
  intros H1 H2. apply Rle_antisym; [now apply lmin_le|]. apply H2, lmin_In. now destruct l.
Qed.
Lemma lmax_unique l m : In m l -> (forall x, In x l -> x <= m) -> lmax l = m.
Proof.
  intros H1 H2. apply Rle_antisym; [|now apply lmax_ge]. apply H2, lmax_In. now destruct l.
Qed.
Lemma lmin_map_mono f l : l <> [] -> (forall x y, x <= y -> f x <= f y) -> lmin (map f l) = f (lmin l).
Proof.
  intros H Hf. apply lmin_unique.
  - apply in_map, lmin_In, H.
  - intros x Hx. apply in_map_iff in Hx as (y & <- & Hy). now apply Hf, lmin_le.
Qed.
Lemma lmax_map_mono f l : l <> [] -> (forall x y, x <= y -> f x <= f y) -> lmax (map f l) = f (lmax l).
Proof.
  intros H Hf. apply lmax_unique.
  - apply in_map, lmax_In, H.
  - intros x Hx. apply in_map_iff in Hx as (y & <- & Hy). now apply Hf, lmax_ge.
Qed.
Lemma lmin_le_lmax l : l <> [] -> lmin l <= lmax l.
Proof. intros H. apply lmin_le, lmax_In, H. Qed.

(** ** Variance *)
Lemma variance_nonneg l : (2 <= length l)%nat -> 0 <= variance l.
Proof.
  intros H. unfold variance. apply Rmult_le_pos.
  - apply sum_map_nonneg. intros x _. apply pow2_ge_0.
  - apply Rlt_le, Rinv_0_lt_compat. apply le_INR in H. cbn in H. lra.
Qed.
Lemma variance_shift l c : l <> [] -> variance (map (fun x => x - c) l) = variance l.
Proof.
  intros H. unfold variance. rewrite mean_map_minus_const, map_map, map_length by exact H.
  f_equal. apply sum_map_ext. intros x _. ring.
Qed.
Lemma variance_div l c : c <> 0 -> variance (map (fun x => x / c) l) = variance l / c ^ 2.
Proof.
  intros Hc. unfold variance. rewrite mean_map_div, map_map, map_length.
  transitivity (sum (map (fun x => / c ^ 2 * (x - mean l) ^ 2) l) / (INR (length l) - 1)).
  - f_equal. apply sum_map_ext. intros x _. field. exact Hc.
  - rewrite sum_map_scal. unfold Rdiv. ring.
Qed.
Lemma std_nonneg l : 0 <= std l.
Proof. apply sqrt_pos. Qed.
Lemma std_shift l c : l <> [] -> std (map (fun x => x - c) l) = std l.
Proof. intros H. unfold std. now rewrite variance_shift. Qed.
Lemma std_div l c : 0 < c -> (2 <= length l)%nat -> std (map (fun x => x / c) l) = std l / c.
Proof.
  intros Hc Hl. unfold std. rewrite variance_div by lra.
  rewrite sqrt_div_alt by (apply pow_lt; lra). now rewrite sqrt_pow2 by lra.
Qed.

(** ** Inner products *)
Lemma dot_cons x a y b : dot (x :: a) (y :: b) = x * y + dot a b.
Proof. reflexivity. Qed.
Lemma dot_nil_l b : dot [] b = 0.
Proof. reflexivity. Qed.
Lemma dot_nil_r a : dot a [] = 0.
Proof. now destruct a. Qed.
Lemma dot_comm a b : dot a b = dot b a.
Proof. unfold dot. f_equal. apply zipw_comm. intros; ring. Qed.
Lemma dot_self_nonneg a : 0 <= dot a a.
Proof. unfold dot. rewrite zipw_same. apply sum_map_nonneg. intros x _. nra. Qed.
Lemma dot_self_zero a : dot a a = 0 -> Forall (fun x => x = 0) a.
Proof.
  unfold dot. rewrite zipw_same. intros H. apply sum_zero_nonneg in H.
  - apply Forall_map in H. eapply Forall_impl; [|exact H]. cbn. intros x Hx. nra.
  - apply Forall_map, Forall_forall. intros x _. nra.
Qed.
Lemma dot_zipw_plus_l a b c : length a = length b -> dot (zipw Rplus a b) c = dot a c + dot b c.
Proof.
  revert b c. induction a as [|x a IH]; intros [|y b] [|z c] H; cbn [zipw] in *; try discriminate;
    rewrite ?dot_nil_l, ?dot_nil_r, ?dot_cons; try ring. rewrite IH by (now injection H). ring.
Qed.
Lemma dot_zipw_minus_l a b c : length a = length b -> dot (zipw Rminus a b) c = dot a c - dot b c.
Proof.
  revert b c. induction a as [|x a IH]; intros [|y b] [|z c] H; cbn [zipw] in *; try discriminate;
    rewrite ?dot_nil_l, ?dot_nil_r, ?dot_cons; try ring. rewrite IH by (now injection H). ring.
Qed.
Lemma dot_zipw_minus_r a b c : length b = length c -> dot a (zipw Rminus b c) = dot a b - dot a c.
Proof. intros H. rewrite !(dot_comm a). now apply dot_zipw_minus_l. Qed.
Lemma dot_scal_l k a b : dot (map (fun x => k * x) a) b = k * dot a b.
Proof.
  revert b. induction a as [|x a IH]; intros [|y b]; cbn [map]; rewrite ?dot_nil_l, ?dot_nil_r, ?dot_cons; try ring.
  rewrite IH. ring.
Qed.
Lemma dot_scal_r k a b : dot a (map (fun x => k * x) b) = k * dot a b.
Proof. rewrite (dot_comm a), dot_scal_l. now rewrite dot_comm. Qed.
Lemma dot_div_l k a b : dot (map (fun x => x / k) a) b = dot a b / k.
Proof.
  transitivity (dot (map (fun x => / k * x) a) b); [f_equal; apply map_ext; intros; unfold Rdiv; ring|].
  rewrite dot_scal_l. unfold Rdiv. ring.
Qed.
Lemma dot_div_r k a b : dot a (map (fun x => x / k) b) = dot a b / k.
Proof. now rewrite (dot_comm a), dot_div_l, dot_comm. Qed.

Lemma norm_nonneg a : 0 <= norm a.
Proof. apply sqrt_pos. Qed.
Lemma norm_sqr a : norm a * norm a = dot a a.
Proof. apply sqrt_sqrt, dot_self_nonneg. Qed.
Lemma norm_div k a : 0 < k -> norm (map (fun x => x / k) a) = norm a / k.
Proof.
  intros Hk. unfold norm. rewrite dot_div_l, dot_div_r.
  replace (dot a a / k / k) with (dot a a / k ^ 2) by (field; lra).
  rewrite sqrt_div_alt by (apply pow_lt; lra). now rewrite sqrt_pow2 by lra.
Qed.

(** Cauchy-Schwarz. *)
Lemma dot_cauchy a b : length a = length b -> dot a b * dot a b <= dot a a * dot b b.
Proof.
  intros Hl. destruct (Req_dec (dot b b) 0) as [E|E].
  - assert (Hb : Forall (fun x => x = 0) b) by now apply dot_self_zero.
    assert (dot a b = 0).
    { unfold dot. rewrite (zipw_const_r _ a b 0 Hb Hl).
      rewrite (map_ext _ (fun _ => 0)) by (intros; ring). rewrite sum_map_const. ring. }
    rewrite H, E. lra.
  - pose proof (dot_self_nonneg b) as Hb. pose proof (dot_self_nonneg (zipw Rminus a (map (fun x => dot a b / dot b b * x) b))) as H.
    assert (L : length a = length (map (fun x => dot a b / dot b b * x) b)) by now rewrite map_length.
    rewrite dot_zipw_minus_l, !dot_zipw_minus_r, !dot_scal_l, !dot_scal_r in H by exact L.
    rewrite (dot_comm b a) in H.
    assert (K : dot a a - dot a b / dot b b * dot a b -
                (dot a b / dot b b * dot a b - dot a b / dot b b * (dot a b / dot b b * dot b b)) =
                (dot a a * dot b b - dot a b * dot a b) / dot b b) by (field; exact E).
    rewrite dot_scal_l in H || idtac.
    rewrite K in H. apply (Rmult_le_compat_r (dot b b)) in H; [|exact Hb].
    unfold Rdiv in H. rewrite Rmult_assoc, Rinv_l, Rmult_1_r in H by exact E. lra.
Qed.
Lemma dot_le_norms a b : length a = length b -> Rabs (dot a b) <= norm a * norm b.
Proof.
  intros H. apply Rsqr_incr_0_var.
  - rewrite <- Rsqr_abs. unfold Rsqr.
    replace (norm a * norm b * (norm a * norm b)) with ((norm a * norm a) * (norm b * norm b)) by ring.
    rewrite !norm_sqr. now apply dot_cauchy.
  - apply Rmult_le_pos; apply norm_nonneg.
Qed.

(** ** Columns *)
Lemma column_length j m : length (column j m) = length m.
Proof. apply map_length. Qed.
Lemma colwise_length f m : length (colwise f m) = width m.
Proof. unfold colwise. now rewrite map_length, seq_length. Qed.
Lemma colwise_nth f m j : (j < width m)%nat -> nth j (colwise f m) 0 = f (column j m).
Proof.
  intros H. unfold colwise. rewrite (nth_indep _ 0 (f (column O m))) by (now rewrite map_length, seq_length).
  rewrite (map_nth (fun j => f (column j m))), seq_nth by exact H. reflexivity.
Qed.
Lemma rect_width d m : rect d m -> m <> [] -> width m = d.
Proof. intros H Hm. destruct m as [|r m]; [congruence|]. inversion H. assumption. Qed.
Lemma rect_nth d m i : rect d m -> (i < length m)%nat -> length (nth i m []) = d.
Proof.
  intros H Hi. eapply (proj1 (Forall_forall _ _) H). apply nth_In. exact Hi.
Qed.
Lemma column_map_zip (op : R -> R -> R) d m s j : rect d m -> length s = d -> (j < d)%nat ->
  column j (map (fun r => zipw op r s) m) = map (fun v => op v (nth j s 0)) (column j m).
Proof.
  intros H Hs Hj. unfold column. rewrite !map_map. apply map_ext_in. intros r Hr.
  apply (zipw_nth op r s j 0 0 0); [|now rewrite Hs].
  now rewrite (proj1 (Forall_forall _ _) H r Hr).
Qed.
Lemma rect_map_zip (op : R -> R -> R) d m s : rect d m -> length s = d -> rect d (map (fun r => zipw op r s) m).
Proof.
  intros H Hs. apply Forall_map. eapply Forall_impl; [|exact H]. cbn. intros r Hr.
  rewrite zipw_length by congruence. exact Hr.
Qed.
Lemma rect_map_rows f d m : (forall r, length (f r) = length r) -> rect d m -> rect d (map f m).
Proof. intros Hf H. apply Forall_map. eapply Forall_impl; [|exact H]. cbn. intros r Hr. now rewrite Hf. Qed.

Lemma vec_ext d (a b : vec) : length a = d -> length b = d ->
  (forall j, (j < d)%nat -> nth j a 0 = nth j b 0) -> a = b.
Proof. intros Ha Hb H. apply (nth_ext a b 0 0); [congruence|]. intros j Hj. apply H. now rewrite <- Ha. Qed.

(** The inner product with the vector of column means is the mean of the inner
    products. *)
Lemma dot_as_sum d a b : length a = d -> length b = d ->
  dot a b = sum (map (fun j => nth j a 0 * nth j b 0) (seq 0 d)).
Proof.
  revert a b. induction d as [|d IH]; intros [|x a] [|y b] Ha Hb; cbn in Ha, Hb; try discriminate; [reflexivity|].
  rewrite dot_cons. cbn [seq map]. rewrite sum_cons. cbn [nth]. f_equal.
  rewrite (IH a b) by lia.
  rewrite <- seq_shift, map_map. reflexivity.
Qed.
Lemma dot_colmean d a m : rect d m -> m <> [] -> length a = d ->
  dot a (colwise mean m) = mean (map (dot a) m).
Proof.
  intros H Hm Ha. pose proof (rect_width d m H Hm) as Hw.
  rewrite (dot_as_sum d) by (auto; now rewrite colwise_length).
  rewrite mean_map.
  transitivity (sum (map (fun j => sum (map (fun r => nth j a 0 * nth j r 0) m) / INR (length m)) (seq 0 d))).
  - apply sum_map_ext. intros j Hj. apply in_seq in Hj. rewrite colwise_nth by lia.
    unfold mean, column. rewrite map_length. rewrite (sum_map_scal (nth j a 0) (fun r => nth j r 0)).
    unfold Rdiv. symmetry. apply Rmult_assoc.
  - transitivity (/ INR (length m) * sum (map (fun j => sum (map (fun r => nth j a 0 * nth j r 0) m)) (seq 0 d))).
    + rewrite <- sum_map_scal. apply sum_map_ext. intros; unfold Rdiv; ring.
    + rewrite sum_exchange. unfold Rdiv. rewrite Rmult_comm. f_equal. apply sum_map_ext.
      intros r Hr. symmetry. apply dot_as_sum; [exact Ha|]. exact (proj1 (Forall_forall _ _) H r Hr).
Qed.

(** ** Gram matrices *)
Lemma gram_length a b : length (gram a b) = length a.
Proof. apply map_length. Qed.
Lemma gram_rect a b : rect (length b) (gram a b).
Proof. apply Forall_map, Forall_forall. intros r _. apply map_length. Qed.
Lemma gram_nth a b i j : (i < length a)%nat -> (j < length b)%nat ->
  nth j (nth i (gram a b) []) 0 = dot (nth i a []) (nth j b []).
Proof.
  intros Hi Hj. unfold gram.
  rewrite (nth_indep _ [] (map (dot []) b)) by (now rewrite map_length).
  rewrite (map_nth (fun x => map (dot x) b)).
  rewrite (nth_indep _ 0 (dot (nth i a []) [])) by (now rewrite map_length).
  apply map_nth.
Qed.
Lemma diag_gram a : diag (gram a a) = map (fun x => dot x x) a.
Proof.
  unfold diag. rewrite gram_length. apply (nth_ext _ _ 0 0); [now rewrite !map_length, seq_length|].
  rewrite map_length, seq_length. intros i Hi.
  rewrite (nth_indep _ 0 (nth 0 (nth 0 (gram a a) []) 0)) by (now rewrite map_length, seq_length).
  rewrite (map_nth (fun i => nth i (nth i (gram a a) []) 0)), seq_nth by exact Hi. cbn [plus].
  rewrite gram_nth by exact Hi.
  rewrite (nth_indep _ 0 (dot [] [])) by (now rewrite map_length). symmetry. apply (map_nth (fun x => dot x x)).
Qed.
Lemma column_gram a b j : (j < length b)%nat -> column j (gram a b) = map (fun x => dot x (nth j b [])) a.
Proof.
  intros Hj. unfold column, gram. rewrite map_map. apply map_ext. intros x.
  rewrite (nth_indep _ 0 (dot x [])) by (now rewrite map_length). apply map_nth.
Qed.
Lemma transpose_gram a b : a <> [] -> transpose (gram a b) = gram b a.
Proof.
  intros Ha. unfold transpose. rewrite (rect_width (length b)); [|apply gram_rect|destruct a; [congruence|discriminate]].
  apply (nth_ext _ _ [] []); [unfold gram; now rewrite !map_length, seq_length|].
  rewrite map_length, seq_length. intros j Hj.
  rewrite (nth_indep _ [] (column O (gram a b))) by (now rewrite map_length, seq_length).
  rewrite (map_nth (fun j => column j (gram a b))), seq_nth by exact Hj. cbn [plus].
  rewrite column_gram by exact Hj. unfold gram.
  rewrite (nth_indep (map (fun x => map (dot x) a) b) [] (map (dot []) a)) by (now rewrite map_length).
  rewrite (map_nth (fun x => map (dot x) a)). apply map_ext. intros x. apply dot_comm.
Qed.
