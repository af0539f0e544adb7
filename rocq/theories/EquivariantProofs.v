(** Pre-images in other coordinates or in another order: proofs. *)
From Coq Require Import Permutation.
From Verif Require Import Base RVec RVecProofs Method MethodSpec MethodProofs KernelMethod EquivariantSpec.
Open Scope R_scope.

Lemma affine_nth A b x j : (j < List.length A)%nat -> List.length b = List.length A ->
  nth j (affine A b x) 0 = dot x (nth j A []) + nth j b 0.
Proof.
  intros Hj Hb. unfold affine. rewrite (zipw_nth Rplus _ _ j 0 0) by (rewrite ?map_length; lia). f_equal.
  rewrite (nth_indep _ 0 (dot x [])) by (now rewrite map_length). apply (map_nth (dot x)).
Qed.
Lemma affine_length A b x : List.length b = List.length A -> List.length (affine A b x) = List.length A.
Proof. intros Hb. unfold affine. rewrite zipw_length; rewrite map_length; auto. Qed.
Lemma affine_rect A b m : List.length b = List.length A -> rect (List.length A) (map (affine A b) m).
Proof. intros Hb. apply Forall_map, Forall_forall. intros x _. now apply affine_length. Qed.

Lemma nth_map_in {A B} (f : A -> B) l i da db : (i < List.length l)%nat -> nth i (map f l) db = f (nth i l da).
Proof. intros H. rewrite (nth_indep _ db (f da)) by (now rewrite map_length). apply map_nth. Qed.

Section Affine.
  Variables (A : mat) (b : vec) (d : nat).
  Hypothesis RA : rect d A.
  Hypothesis Hb : List.length b = List.length A.

  Lemma nth_affine j : (j < List.length A)%nat -> List.length (nth j A []) = d.
  Proof. intros H. now apply rect_nth. Qed.
  (** The mean of the images is the image of the mean. *)
  Lemma affine_mean m : rect d m -> m <> [] -> colwise mean (map (affine A b) m) = affine A b (colwise mean m).
  Proof.
    intros Rm Nm. pose proof (affine_rect A b m Hb) as Ra.
    assert (Na : map (affine A b) m <> []) by (destruct m; [now elim Nm|discriminate]).
    apply (vec_ext (List.length A)); [rewrite colwise_length; now apply rect_width|now apply affine_length|].
    intros j Hj. rewrite colwise_nth by (rewrite (rect_width _ _ Ra Na); exact Hj).
    rewrite affine_nth by auto. rewrite (dot_comm _ (nth j A [])), (dot_colmean d) by (auto; now apply nth_affine).
    unfold column. rewrite map_map.
    rewrite (map_ext (fun x => nth j (affine A b x) 0) (fun x => dot (nth j A []) x + nth j b 0)).
    2: { intros x. rewrite affine_nth by auto. now rewrite dot_comm. }
    pose proof (INR_length_pos m Nm) as P.
    unfold mean. rewrite sum_map_plus, sum_map_const, !map_length. field. lra.
  Qed.
  Lemma pick_affine m idx : Forall (fun i => (i < List.length m)%nat) idx -> pick (map (affine A b) m) idx = map (affine A b) (pick m idx).
  Proof.
    intros F. unfold pick. rewrite map_map. apply map_ext_in. intros i Hi. apply nth_map_in. exact (proj1 (Forall_forall _ _) F i Hi).
  Qed.
  (** Weighted means. *)
  Lemma affine_weights w m : List.length w = List.length m -> sum w = 1 -> rect d m -> m <> [] ->
    map (fun j => dot w (column j (map (affine A b) m))) (seq 0 (width (map (affine A b) m))) =
    affine A b (map (fun j => dot w (column j m)) (seq 0 (width m))).
  Proof.
    intros Lw Sw Rm Nm. pose proof (affine_rect A b m Hb) as Ra.
    assert (Na : map (affine A b) m <> []) by (destruct m; [now elim Nm|discriminate]).
    rewrite (rect_width _ _ Ra Na), (rect_width _ _ Rm Nm).
    apply (vec_ext (List.length A)); [rewrite map_length; apply seq_length|now apply affine_length|].
    intros j Hj. rewrite affine_nth by auto. rewrite (nth_map_in _ _ j 0%nat) by (now rewrite seq_length).
    rewrite seq_nth, Nat.add_0_l by exact Hj.
    assert (E : column j (map (affine A b) m) = map (fun x => dot (nth j A []) x + nth j b 0) m).
    { unfold column. rewrite map_map. apply map_ext. intros x. rewrite affine_nth by auto. now rewrite dot_comm. }
    rewrite E.
    assert (D : forall (f : vec -> R) v l, List.length v = List.length l -> dot v (map f l) = sum (map (fun p => fst p * f (snd p)) (combine v l))).
    { intros f v. induction v as [|x v IH]; intros [|y l] H; try discriminate H; [reflexivity|].
      cbn [map combine]. rewrite dot_cons, sum_cons, IH by (now injection H). reflexivity. }
    rewrite D by exact Lw.
    rewrite (map_ext _ (fun p => fst p * dot (nth j A []) (snd p) + nth j b 0 * fst p)) by (intros p; ring).
    rewrite sum_map_plus, sum_map_scal. rewrite <- (D (dot (nth j A [])) w m Lw).
    assert (F : map fst (combine w m) = w).
    { clear -Lw. revert m Lw. induction w as [|x w IH]; intros [|y m] H; try discriminate H; [reflexivity|]. cbn. now rewrite IH by (now injection H). }
    rewrite F, Sw, Rmult_1_r. f_equal.
    (* exchange *)
    pose proof (nth_affine j Hj) as La. rewrite (dot_comm _ (nth j A [])).
    rewrite (dot_as_sum d (nth j A [])) by (auto; now rewrite map_length, seq_length).
    rewrite D by exact Lw.
    transitivity (sum (map (fun p => sum (map (fun l => fst p * (nth l (nth j A []) 0 * nth l (snd p) 0)) (seq 0 d))) (combine w m))).
    - apply sum_map_ext. intros p Hp. rewrite sum_map_scal. f_equal. apply dot_as_sum; [exact La|].
      destruct p as [x y]. apply in_combine_r in Hp. exact (proj1 (Forall_forall _ _) Rm y Hp).
    - rewrite sum_exchange. apply sum_map_ext. intros l Hl. apply in_seq in Hl.
      rewrite (nth_map_in _ _ l 0%nat) by (rewrite seq_length; lia). rewrite seq_nth, Nat.add_0_l by lia.
      cbv beta. pose proof (D (fun r => nth l r 0) w m Lw) as Dl.
      change (dot w (column l m)) with (dot w (map (fun r : vec => nth l r 0) m)). rewrite Dl, <- sum_map_scal. apply sum_map_ext. intros p _.
      exact (eq_trans (eq_sym (Rmult_assoc _ _ _)) (eq_trans (f_equal (fun z => z * nth l (snd p) 0) (Rmult_comm _ _)) (Rmult_assoc _ _ _))).
  Qed.
End Affine.

Section Methods.
  Variable topk : vec -> nat -> list nat.
  Hypothesis Ht : selects_largest topk.
  Variables (A : mat) (b : vec) (d : nat).
  Hypothesis RA : rect d A.
  Hypothesis Hb : List.length b = List.length A.

  Lemma shifted_rect cols dists : rect cols dists -> rect cols (shifted dists).
  Proof.
    intros H. unfold shifted. destruct (Rle_dec _ _); [|exact H]. apply rect_map_rows; [|exact H]. intros x. apply map_length.
  Qed.
  Theorem knn_affine cols dists observations num : rect d observations -> rect cols dists ->
    knn topk cols dists (map (affine A b) observations) num =
    answers (map (affine A b)) (knn topk cols dists observations num).
  Proof.
    intros Ro Rd. unfold knn. rewrite map_length.
    destruct (Nat.eqb_spec cols (List.length observations)) as [Hc|Hc]; cbn [negb]; [|reflexivity].
    destruct (Z.ltb_spec (Z.of_nat cols) num) as [H1|H1]; [reflexivity|].
    destruct (Z.leb_spec num 0) as [H2|H2]; [reflexivity|].
    destruct dists as [|r0 dists]; [reflexivity|]. set (D := r0 :: dists) in *.
    unfold answers. f_equal. rewrite map_map. apply map_ext_in. intros row Hr.
    pose proof (proj1 (Forall_forall _ _) (shifted_rect cols D Rd) row Hr) as Lr. cbv beta in Lr.
    unfold knn_row. destruct (Ht (map Ropp row) (Z.to_nat num) ltac:(rewrite map_length; lia)) as (T1 & T2 & T3 & _).
    set (idx := topk (map Ropp row) (Z.to_nat num)) in *.
    assert (T : Forall (fun i => (i < List.length observations)%nat) idx).
    { eapply Forall_impl; [|exact T3]. intros i Hi. cbv beta in Hi. rewrite map_length in Hi. lia. }
    rewrite (pick_affine A b) by exact T. apply (affine_mean A b d RA Hb); [now apply pick_rect|].
    destruct idx; [cbn in T2; lia|discriminate].
  Qed.
  Theorem smoother_affine cols coefficients observations num : rect d observations -> rect cols coefficients ->
    smoother topk cols coefficients (map (affine A b) observations) num =
    answers (map (option_map (affine A b))) (smoother topk cols coefficients observations num).
  Proof.
    intros Ro Rc. unfold smoother. rewrite map_length.
    destruct (Nat.eqb_spec cols (List.length observations)) as [Hc|Hc]; cbn [negb]; [|reflexivity].
    set (n := match num with None => Z.of_nat cols | Some n => n end).
    destruct (Z.leb_spec n 0) as [H1|H1]; [reflexivity|].
    destruct (Z.ltb_spec (Z.of_nat cols) n) as [H2|H2]; [reflexivity|].
    unfold answers. f_equal. rewrite map_map. apply map_ext_in. intros row Hr.
    pose proof (proj1 (Forall_forall _ _) Rc row Hr) as Lr. cbv beta in Lr.
    unfold smoother_row. set (kept := kept_coeff topk cols (Z.to_nat n) row).
    destruct (Req_EM_T (sum kept) 0) as [Z0|Z0]; [reflexivity|]. cbn [option_map].
    assert (Lk : List.length kept = cols) by (now apply kept_shape).
    apply (f_equal Some). apply (affine_weights A b d RA Hb).
    - unfold weights. rewrite map_length. congruence.
    - unfold weights. rewrite (map_ext _ (fun v => / sum kept * v)) by (intros v; unfold Rdiv; ring).
      rewrite (sum_map_scal (/ sum kept) (fun v => v)), map_id. now apply Rinv_l.
    - exact Ro.
    - destruct observations; [cbn in Hc; lia|discriminate].
  Qed.
End Methods.

(** ** The points in another order *)
Lemma in_order_length {A} (default : A) p l : List.length (in_order default p l) = List.length p.
Proof. apply map_length. Qed.
Lemma order_length n p : order_of n p -> List.length p = n.
Proof. intros H. rewrite (Permutation_length H). apply seq_length. Qed.
Lemma order_in n p i : order_of n p -> In i p <-> (i < n)%nat.
Proof.
  intros H. split; intros I.
  - apply (Permutation_in _ H) in I. apply in_seq in I. lia.
  - apply (Permutation_in _ (Permutation_sym H)). apply in_seq. lia.
Qed.
Lemma in_order_id {A} (default : A) l : in_order default (seq 0 (List.length l)) l = l.
Proof.
  unfold in_order. induction l as [|x l IH]; [reflexivity|]. cbn [List.length seq map nth]. f_equal.
  rewrite <- seq_shift, map_map. exact IH.
Qed.
Lemma in_order_perm {A} (default : A) p l : order_of (List.length l) p -> Permutation (in_order default p l) l.
Proof.
  intros H. rewrite <- (in_order_id default l) at 2. apply Permutation_map. exact H.
Qed.
Lemma sum_perm l l' : Permutation l l' -> sum l = sum l'.
Proof.
  intros H. induction H; [reflexivity|rewrite !sum_cons; congruence|rewrite !sum_cons; ring|congruence].
Qed.
Lemma mean_perm l l' : Permutation l l' -> mean l = mean l'.
Proof. intros H. unfold mean. now rewrite (sum_perm _ _ H), (Permutation_length H). Qed.
Lemma dot_order n p a b : order_of n p -> List.length a = n -> List.length b = n ->
  dot (in_order 0 p a) (in_order 0 p b) = dot a b.
Proof.
  intros H Ha Hb. rewrite (dot_as_sum n a b Ha Hb).
  assert (D : forall q, dot (in_order 0 q a) (in_order 0 q b) = sum (map (fun j => nth j a 0 * nth j b 0) q)).
  { intros q. unfold in_order. induction q as [|i q IH]; [reflexivity|]. cbn [map]. rewrite dot_cons, sum_cons. now f_equal. }
  rewrite D. apply sum_perm, Permutation_map. exact H.
Qed.
Lemma column_order j p m : column j (in_order [] p m) = in_order 0 p (column j m).
Proof.
  unfold column, in_order. rewrite map_map. apply map_ext. intros i.
  destruct (Nat.lt_ge_cases i (List.length m)) as [H|H].
  - rewrite (nth_indep (map _ m) 0 (nth j [] 0)) by (now rewrite map_length). symmetry. exact (map_nth (fun x => nth j x 0) m [] i).
  - rewrite (nth_overflow m) by exact H. rewrite (nth_overflow (map _ m)) by (rewrite map_length; exact H). now destruct j.
Qed.
Lemma rect_order d p m : order_of (List.length m) p -> rect d m -> rect d (in_order [] p m).
Proof.
  intros H R. apply Forall_map, Forall_forall. intros i Hi. apply rect_nth; [exact R|]. now apply (order_in _ _ i H).
Qed.
Lemma width_order d p m : order_of (List.length m) p -> rect d m -> width (in_order [] p m) = width m.
Proof.
  intros H R. destruct m as [|x m].
  - pose proof (order_length _ _ H) as L. destruct p; [reflexivity|discriminate L].
  - rewrite (rect_width d (x :: m) R) by discriminate. apply rect_width; [now apply rect_order|].
    pose proof (order_length _ _ H) as L. destruct p; [discriminate L|discriminate].
Qed.
Lemma smoother_row_order d p observations kept : order_of (List.length observations) p -> rect d observations ->
  List.length kept = List.length observations ->
  smoother_row (in_order [] p observations) (in_order 0 p kept) = smoother_row observations kept.
Proof.
  intros H R L. assert (S : sum (in_order 0 p kept) = sum kept).
  { apply sum_perm, in_order_perm. now rewrite L. }
  unfold smoother_row. rewrite S. destruct (Req_EM_T (sum kept) 0); [reflexivity|]. f_equal.
  rewrite (width_order d) by assumption. apply map_ext. intros j.
  assert (W : weights (in_order 0 p kept) = in_order 0 p (weights kept)).
  { unfold weights, in_order. rewrite map_map. apply map_ext_in. intros i Hi.
    change (sum (map (fun i => nth i kept 0) p)) with (sum (in_order 0 p kept)). rewrite S.
    symmetry. apply (nth_map_in (fun v => v / sum kept) kept i 0 0). apply (order_in _ _ i H) in Hi. lia. }
  rewrite W, column_order. apply (dot_order (List.length observations)); [exact H| |apply map_length].
  unfold weights. now rewrite map_length.
Qed.

Lemma nodup_nth p idx : NoDup idx -> (forall i, In i idx -> (i < List.length p)%nat) -> NoDup p -> NoDup (map (fun i => nth i p 0%nat) idx).
Proof.
  intros N F Np. induction N as [|i idx Hi N IH]; [constructor|]. cbn [map]. constructor; [|apply IH; intros j Hj; apply F; now right].
  intros I. apply in_map_iff in I. destruct I as (j & E & Hj). apply Hi.
  assert (Q : j = i) by (apply (proj1 (NoDup_nth p 0%nat) Np); [apply F; now right|apply F; now left|exact E]). now subst j.
Qed.
Section Distinct.
  Variable row : vec.
  Hypothesis D : NoDup row.
  Lemma nodup_other {A} (dec : forall x y : A, {x = y} + {x <> y}) (a : A) (l l' : list A) :
    NoDup l -> NoDup l' -> List.length l = List.length l' -> In a l -> ~ In a l' -> exists b, In b l' /\ ~ In b l.
  Proof.
    intros N N' L I O. destruct (Exists_dec (fun b => ~ In b l) l') as [E|E].
    - intros b. destruct (in_dec dec b l) as [J|J]; [right; tauto|left; exact J].
    - apply Exists_exists in E. exact E.
    - exfalso. assert (C : incl l' l).
      { intros b Hb. destruct (in_dec dec b l) as [J|J]; [exact J|]. elim E. apply Exists_exists. now exists b. }
      assert (M : (List.length l <= List.length l')%nat) by (rewrite L; apply le_n).
      pose proof (NoDup_length_incl N' M C) as C'. exact (O (C' a I)).
  Qed.
  Lemma largest_unique k i1 i2 : largest row k i1 -> largest row k i2 -> Permutation i1 i2.
  Proof.
    assert (Inc : forall i1 i2, largest row k i1 -> largest row k i2 -> forall a, In a i1 -> In a i2).
    { intros j1 j2 (N1 & L1 & F1 & G1) (N2 & L2 & F2 & G2) a Ha. destruct (in_dec Nat.eq_dec a j2) as [J|J]; [exact J|exfalso].
      destruct (nodup_other Nat.eq_dec a j1 j2 N1 N2 ltac:(congruence) Ha J) as (b & B1 & B2).
      pose proof (proj1 (Forall_forall _ _) F1 a Ha) as La. pose proof (proj1 (Forall_forall _ _) F2 b B1) as Lb. cbv beta in La, Lb.
      pose proof (G1 a b Ha Lb B2) as Q1. pose proof (G2 b a B1 La J) as Q2.
      assert (E : a = b) by (apply (proj1 (NoDup_nth row 0) D); auto; lra). subst b. contradiction. }
    intros H1 H2. apply NoDup_Permutation; [apply H1|apply H2|]. intros a. split; eapply Inc; eassumption.
  Qed.
  (** The largest values of the reordered row. *)
  Lemma largest_order p k idx : order_of (List.length row) p -> largest (in_order 0 p row) k idx ->
    largest row k (map (fun i => nth i p 0%nat) idx).
  Proof.
    intros H (N & L & F & G). pose proof (order_length _ _ H) as Lp. rewrite in_order_length in *.
    assert (Np : NoDup p) by (apply (Permutation_NoDup (Permutation_sym H)), seq_NoDup).
    assert (V : forall i, (i < List.length p)%nat -> nth i (in_order 0 p row) 0 = nth (nth i p 0%nat) row 0).
    { intros i Hi. unfold in_order. exact (nth_map_in (fun i => nth i row 0) p i 0%nat 0 Hi). }
    pose proof (proj1 (Forall_forall _ _) F) as F'. cbv beta in F'.
    assert (B : forall i, (i < List.length p)%nat -> (nth i p 0%nat < List.length row)%nat).
    { intros i Hi. apply (order_in _ _ _ H). apply nth_In. exact Hi. }
    split; [|split; [now rewrite map_length|split]].
    - now apply nodup_nth.
    - apply Forall_map. eapply Forall_impl; [|exact F]. intros i Hi. now apply B.
    - intros a b Ha Hb Nb. apply in_map_iff in Ha. destruct Ha as (i & <- & Hi).
      apply (order_in _ _ _ H) in Hb. destruct (In_nth p b 0%nat Hb) as (j & Hj & Ej). subst b.
      rewrite <- !V by (auto). apply G; auto. intros I. apply Nb. apply in_map_iff. now exists j.
  Qed.
End Distinct.

Lemma nodup_map_inj {A B} (f : A -> B) l : (forall x y, f x = f y -> x = y) -> NoDup l -> NoDup (map f l).
Proof. intros I. apply FinFun.Injective_map_NoDup. exact I. Qed.
Lemma nearest_largest row k idx : nearest row k idx -> largest (map Ropp row) k idx.
Proof.
  intros (N & L & F & G). split; [exact N|split; [exact L|split; [now rewrite map_length|]]].
  intros a b Ha Hb Nb. rewrite map_length in Hb. rewrite !nth_map_opp. apply Ropp_le_contravar. now apply G.
Qed.
Lemma in_order_map {A B} (f : A -> B) da db n p l : order_of n p -> List.length l = n ->
  in_order db p (map f l) = map f (in_order da p l).
Proof.
  intros H L. unfold in_order. rewrite map_map. apply map_ext_in. intros i Hi. apply nth_map_in.
  apply (order_in _ _ i H) in Hi. lia.
Qed.
Lemma nearest_unique row k i1 i2 : NoDup row -> nearest row k i1 -> nearest row k i2 -> Permutation i1 i2.
Proof.
  intros D H1 H2. apply (largest_unique (map Ropp row)) with (k := k); try now apply nearest_largest.
  apply nodup_map_inj; [intros x y E; lra|exact D].
Qed.
Lemma nearest_order row p k idx : order_of (List.length row) p -> nearest (in_order 0 p row) k idx ->
  nearest row k (map (fun i => nth i p 0%nat) idx).
Proof.
  intros H Q. apply largest_nearest. apply largest_order; [now rewrite map_length|].
  rewrite (in_order_map Ropp 0 0 (List.length row)) by auto. now apply nearest_largest.
Qed.
Lemma pick_order n p m idx : order_of n p -> Forall (fun i => (i < n)%nat) idx ->
  pick (in_order [] p m) idx = pick m (map (fun i => nth i p 0%nat) idx).
Proof.
  intros H F. unfold pick. rewrite map_map. apply map_ext_in. intros i Hi. unfold in_order.
  apply (nth_map_in (fun i => nth i m []) p i 0%nat []). rewrite (order_length _ _ H). exact (proj1 (Forall_forall _ _) F i Hi).
Qed.
Lemma pick_mean_perm d m i1 i2 : rect d m -> i1 <> [] -> Forall (fun i => (i < List.length m)%nat) i1 -> Permutation i1 i2 ->
  colwise mean (pick m i1) = colwise mean (pick m i2).
Proof.
  intros R N F P.
  assert (F2 : Forall (fun i => (i < List.length m)%nat) i2) by exact (Permutation_Forall P F).
  assert (N2 : i2 <> []) by (intros ->; apply Permutation_sym, Permutation_nil in P; contradiction).
  pose proof (pick_rect d m i1 R F) as R1. pose proof (pick_rect d m i2 R F2) as R2.
  assert (W1 : width (pick m i1) = d) by (apply rect_width; [exact R1|destruct i1; [now elim N|discriminate]]).
  assert (W2 : width (pick m i2) = d) by (apply rect_width; [exact R2|destruct i2; [now elim N2|discriminate]]).
  apply (vec_ext d); [now rewrite colwise_length|now rewrite colwise_length|].
  intros j Hj. rewrite !colwise_nth by lia. apply mean_perm. rewrite !pick_column. now apply Permutation_map.
Qed.
(** The distances are only moved by a constant. *)
Lemma shifted_by dists : exists c, shifted dists = map (map (fun v => v + c)) dists.
Proof.
  unfold shifted. destruct (Rle_dec _ _).
  - exists (- lmin (concat dists)). reflexivity.
  - exists 0. rewrite (map_ext (map (fun v : R => v + 0)) (fun x => x)); [now rewrite map_id|].
    intros x. rewrite (map_ext _ (fun v => v)) by (intros v; ring). apply map_id.
Qed.

Section Orders.
  Variable topk : vec -> nat -> list nat.
  Hypothesis Ht : selects_largest topk.
  Variable d : nat.

  Theorem knn_order cols dists observations num p : rect d observations -> rect cols dists ->
    order_of (List.length observations) p -> Forall (@NoDup R) dists ->
    knn topk cols (map (in_order 0 p) dists) (in_order [] p observations) num = knn topk cols dists observations num.
  Proof.
    intros Ro Rd H Fd. unfold knn. rewrite in_order_length, (order_length _ _ H).
    destruct (Nat.eqb_spec cols (List.length observations)) as [Hc|Hc]; cbn [negb]; [|reflexivity].
    destruct (Z.ltb_spec (Z.of_nat cols) num) as [H1|H1]; [reflexivity|].
    destruct (Z.leb_spec num 0) as [H2|H2]; [reflexivity|].
    destruct dists as [|r0 dists]; [reflexivity|]. set (D := r0 :: dists) in *. change (map (in_order 0 p) D) with (in_order 0 p r0 :: map (in_order 0 p) dists) at 1.
    cbv iota. apply (f_equal Ok).
    destruct (shifted_by D) as (c & Ec). destruct (shifted_by (map (in_order 0 p) D)) as (c' & Ec').
    rewrite Ec, Ec', !map_map. apply map_ext_in. intros row Hr.
    pose proof (proj1 (Forall_forall _ _) Rd row Hr) as Lr. pose proof (proj1 (Forall_forall _ _) Fd row Hr) as Nr. cbv beta in Lr.
    assert (Lp : List.length p = cols) by (rewrite (order_length _ _ H); congruence).
    unfold knn_row.
    pose proof (Ht (map Ropp (map (fun v => v + c') (in_order 0 p row))) (Z.to_nat num)) as T1.
    rewrite !map_length, in_order_length in T1. specialize (T1 ltac:(lia)).
    pose proof (Ht (map Ropp (map (fun v => v + c) row)) (Z.to_nat num)) as T2.
    rewrite !map_length in T2. specialize (T2 ltac:(lia)).
    set (i1 := topk (map Ropp (map (fun v => v + c') (in_order 0 p row))) (Z.to_nat num)) in *.
    set (i2 := topk (map Ropp (map (fun v => v + c) row)) (Z.to_nat num)) in *.
    apply largest_nearest in T1. apply (proj1 (nearest_shift _ _ _ _)) in T1.
    apply largest_nearest in T2. apply (proj1 (nearest_shift _ _ _ _)) in T2.
    assert (F1 : Forall (fun i => (i < List.length observations)%nat) i1).
    { destruct T1 as (_ & _ & F & _). rewrite in_order_length in F. eapply Forall_impl; [|exact F]. intros i Hi. cbv beta in Hi. lia. }
    rewrite (pick_order (List.length observations)) by assumption.
    assert (Hp : order_of (List.length row) p) by (now rewrite Lr, Hc).
    apply nearest_order in T1; [|exact Hp].
    apply (pick_mean_perm d); [exact Ro| | |].
    - destruct T1 as (_ & L & _). intros E. rewrite E in L. cbn in L. lia.
    - destruct T1 as (_ & _ & F & _). eapply Forall_impl; [|exact F]. intros i Hi. cbv beta in Hi. lia.
    - exact (nearest_unique row _ _ _ Nr T1 T2).
  Qed.

  Lemma scatter_order row p idx idx' : order_of (List.length row) p -> Forall (fun i => (i < List.length row)%nat) idx ->
    Permutation (map (fun i => nth i p 0%nat) idx) idx' -> scatter (in_order 0 p row) idx = in_order 0 p (scatter row idx').
  Proof.
    intros H F P. pose proof (order_length _ _ H) as Lp.
    assert (Np : NoDup p) by (apply (Permutation_NoDup (Permutation_sym H)), seq_NoDup).
    apply (vec_ext (List.length row)); [now rewrite scatter_length, in_order_length|now rewrite in_order_length|].
    intros i Hi. rewrite scatter_nth by (rewrite in_order_length; lia).
    unfold in_order at 2. rewrite (nth_map_in _ p i 0%nat 0) by lia.
    assert (B : (nth i p 0%nat < List.length row)%nat) by (apply (order_in _ _ _ H), nth_In; lia).
    rewrite scatter_nth by exact B.
    assert (E : existsb (Nat.eqb i) idx = existsb (Nat.eqb (nth i p 0%nat)) idx').
    { apply eq_true_iff_eq. rewrite !existsb_eqb. split.
      - intros I. apply (Permutation_in _ P). apply in_map_iff. now exists i.
      - intros I. apply (Permutation_in _ (Permutation_sym P)) in I. apply in_map_iff in I. destruct I as (j & Ej & Ij).
        pose proof (proj1 (Forall_forall _ _) F j Ij) as Lj. cbv beta in Lj.
        assert (Q : j = i) by (apply (proj1 (NoDup_nth p 0%nat) Np); [lia|lia|exact Ej]). now subst j. }
    rewrite E. destruct (existsb _ idx'); [|reflexivity]. unfold in_order. apply (nth_map_in (fun i => nth i row 0) p i 0%nat 0). lia.
  Qed.
  Theorem smoother_order cols coefficients observations num p : rect d observations -> rect cols coefficients ->
    order_of (List.length observations) p -> (num = None \/ num = Some (Z.of_nat cols) \/ Forall (@NoDup R) coefficients) ->
    smoother topk cols (map (in_order 0 p) coefficients) (in_order [] p observations) num =
    smoother topk cols coefficients observations num.
  Proof.
    intros Ro Rd H C. unfold smoother. rewrite in_order_length, (order_length _ _ H).
    destruct (Nat.eqb_spec cols (List.length observations)) as [Hc|Hc]; cbn [negb]; [|reflexivity].
    set (n := match num with None => Z.of_nat cols | Some n => n end).
    assert (C' : n = Z.of_nat cols \/ Forall (@NoDup R) coefficients).
    { destruct C as [-> | [-> | C]]; [now left|now left|now right]. }
    clearbody n.
    destruct (Z.leb_spec n 0) as [H1|H1]; [reflexivity|].
    destruct (Z.ltb_spec (Z.of_nat cols) n) as [H2|H2]; [reflexivity|].
    apply (f_equal Ok). rewrite map_map. apply map_ext_in. intros row Hr.
    pose proof (proj1 (Forall_forall _ _) Rd row Hr) as Lr. cbv beta in Lr.
    assert (Hp : order_of (List.length row) p) by (now rewrite Lr, Hc).
    assert (K : kept_coeff topk cols (Z.to_nat n) (in_order 0 p row) = in_order 0 p (kept_coeff topk cols (Z.to_nat n) row)).
    { unfold kept_coeff. destruct (Nat.eqb_spec (Z.to_nat n) cols) as [En|En]; [reflexivity|].
      destruct C' as [C'|C']; [lia|]. pose proof (proj1 (Forall_forall _ _) C' row Hr) as Nr.
      pose proof (Ht (in_order 0 p row) (Z.to_nat n)) as T1. rewrite in_order_length, (order_length _ _ Hp) in T1. specialize (T1 ltac:(lia)).
      pose proof (Ht row (Z.to_nat n) ltac:(lia)) as T2.
      apply scatter_order; [exact Hp| |].
      - destruct T1 as (_ & _ & F & _). rewrite in_order_length, (order_length _ _ Hp) in F. exact F.
      - apply largest_order in T1; [|exact Hp]. exact (largest_unique row Nr _ _ _ T1 T2). }
    rewrite K. apply (smoother_row_order d); [exact H|exact Ro|]. rewrite kept_shape by exact Lr. congruence.
  Qed.
End Orders.

(** ** Smoothing by a kernel *)
Section Kernel.
  Variable topk : vec -> nat -> list nat.
  Hypothesis Ht : selects_largest topk.
  Variable k : vec -> vec -> R.

  Lemma kernel_rows_rect domain : rect (List.length domain) (kernel_rows k domain).
  Proof. apply Forall_map, Forall_forall. intros x _. apply map_length. Qed.
  Lemma neg_rect cols m : rect cols m -> rect cols (map (map Ropp) m).
  Proof. intros H. apply rect_map_rows; [|exact H]. intros x. apply map_length. Qed.
  Lemma kernel_rows_order p domain : order_of (List.length domain) p ->
    kernel_rows k (in_order [] p domain) = in_order [] p (map (in_order 0 p) (kernel_rows k domain)).
  Proof.
    intros H. unfold kernel_rows at 1. unfold in_order at 2. rewrite map_map. unfold in_order at 2. apply map_ext_in. intros i Hi.
    apply (order_in _ _ i H) in Hi. unfold kernel_rows. rewrite map_map.
    rewrite (nth_map_in _ domain i [] []) by exact Hi.
    symmetry. apply (in_order_map (k (nth i domain [])) [] 0 (List.length domain)); auto.
  Qed.

  Lemma knn_row_shift d cols observations num row c c' : rect d observations -> cols = List.length observations ->
    List.length row = cols -> NoDup row -> (0 < num <= cols)%nat ->
    knn_row topk observations num (map (fun v => v + c) row) = knn_row topk observations num (map (fun v => v + c') row).
  Proof.
    intros Ro Hc Lr Nr Hn. unfold knn_row.
    assert (T : forall e, nearest row num (topk (map Ropp (map (fun v => v + e) row)) num)).
    { intros e. apply (proj1 (nearest_shift row e _ _)), largest_nearest. apply Ht. rewrite !map_length. lia. }
    apply (pick_mean_perm d); [exact Ro| | |exact (nearest_unique row _ _ _ Nr (T c) (T c'))].
    - destruct (T c) as (_ & L & _). intros E. rewrite E in L. cbn in L. lia.
    - destruct (T c) as (_ & _ & F & _). eapply Forall_impl; [|exact F]. intros i Hi. cbv beta in Hi. lia.
  Qed.
  Lemma knn_rows d cols p dists observations num : rect d observations -> rect cols dists ->
    order_of (List.length dists) p -> Forall (@NoDup R) dists ->
    knn topk cols (in_order [] p dists) observations num = answers (in_order [] p) (knn topk cols dists observations num).
  Proof.
    intros Ro Rd H Fd. unfold knn.
    destruct (Nat.eqb_spec cols (List.length observations)) as [Hc|Hc]; cbn [negb]; [|reflexivity].
    destruct (Z.ltb_spec (Z.of_nat cols) num) as [H1|H1]; [reflexivity|].
    destruct (Z.leb_spec num 0) as [H2|H2]; [reflexivity|].
    pose proof (order_length _ _ H) as Lp.
    destruct dists as [|r0 dists]; [destruct p; [reflexivity|discriminate Lp]|]. set (D := r0 :: dists) in *.
    destruct (in_order [] p D) as [|q0 q] eqn:Eq.
    { pose proof (f_equal (@List.length vec) Eq) as Q. rewrite in_order_length, Lp in Q. discriminate Q. }
    rewrite <- Eq.
    unfold answers. apply (f_equal Ok).
    destruct (shifted_by D) as (c & Ec). destruct (shifted_by (in_order [] p D)) as (c' & Ec').
    rewrite Ec, Ec', !map_map. unfold in_order. rewrite map_map. apply map_ext_in. intros i Hi.
    apply (order_in _ _ i H) in Hi. refine (eq_trans _ (eq_sym (nth_map_in (fun x => knn_row topk observations (Z.to_nat num) (map (fun v => v + c) x)) D i [] [] Hi))).
    assert (Ii : In (nth i D []) D) by (apply nth_In; exact Hi).
    apply (knn_row_shift d cols); [exact Ro|exact Hc| | |lia].
    - exact (proj1 (Forall_forall _ _) Rd _ Ii).
    - exact (proj1 (Forall_forall _ _) Fd _ Ii).
  Qed.
  Lemma smoother_rows cols p coefficients observations num : order_of (List.length coefficients) p ->
    smoother topk cols (in_order [] p coefficients) observations num =
    answers (in_order None p) (smoother topk cols coefficients observations num).
  Proof.
    intros H. unfold smoother. destruct (negb _); [reflexivity|]. set (n := match num with None => _ | Some _ => _ end).
    destruct (_ <=? 0)%Z; [reflexivity|]. destruct (_ <? _)%Z; [reflexivity|]. unfold answers. apply (f_equal Ok).
    unfold in_order. rewrite map_map. apply map_ext_in. intros i Hi. apply (order_in _ _ i H) in Hi.
    symmetry. exact (nth_map_in (fun row => smoother_row observations (kept_coeff topk cols (Z.to_nat n) row)) coefficients i [] None Hi).
  Qed.

  Theorem kernel_smoother_order d domain observations num p : rect d observations ->
    List.length domain = List.length observations -> order_of (List.length domain) p ->
    (num = None \/ num = Some (Z.of_nat (List.length domain)) \/ Forall (fun x => NoDup (map (k x) domain)) domain) ->
    kernel_smoother topk k (in_order [] p domain) (in_order [] p observations) num =
    answers (in_order None p) (kernel_smoother topk k domain observations num).
  Proof.
    intros Ro E H C. unfold kernel_smoother. rewrite !in_order_length, (order_length _ _ H), <- E, Nat.eqb_refl. cbn [negb].
    rewrite kernel_rows_order by exact H.
    assert (Lk : List.length (kernel_rows k domain) = List.length domain) by apply map_length.
    assert (Lk' : List.length (map (in_order 0 p) (kernel_rows k domain)) = List.length domain) by (exact (eq_trans (map_length _ _) Lk)).
    rewrite smoother_rows by exact (eq_ind_r (fun n => order_of n p) H Lk'). f_equal.
    apply (smoother_order topk Ht d); [exact Ro|apply kernel_rows_rect|now rewrite <- E|].
    destruct C as [C|[C|C]]; [now left|now (right; left)|right; right]. apply Forall_map. exact C.
  Qed.
  Theorem kernel_knn_order d domain observations num p : rect d observations ->
    List.length domain = List.length observations -> order_of (List.length domain) p ->
    Forall (fun x => NoDup (map (k x) domain)) domain ->
    kernel_knn topk k (in_order [] p domain) (in_order [] p observations) num =
    answers (in_order [] p) (kernel_knn topk k domain observations num).
  Proof.
    intros Ro E H C. unfold kernel_knn. rewrite !in_order_length, (order_length _ _ H), <- E, Nat.eqb_refl. cbn [negb].
    rewrite kernel_rows_order by exact H.
    assert (Lk : List.length (kernel_rows k domain) = List.length domain) by apply map_length.
    set (K := kernel_rows k domain) in *.
    assert (Nk : Forall (@NoDup R) (map (map Ropp) K)).
    { apply Forall_map. unfold K, kernel_rows. apply Forall_map. eapply Forall_impl; [|exact C]. intros x Hx. cbv beta in Hx.
      apply nodup_map_inj; [intros u v Q; lra|exact Hx]. }
    assert (Rk : rect (List.length domain) K) by apply kernel_rows_rect.
    rewrite <- (in_order_map (map Ropp) [] [] (List.length domain)) by (first [exact H | exact (eq_trans (map_length _ _) Lk)]).
    assert (Q : map (map Ropp) (map (in_order 0 p) K) = map (in_order 0 p) (map (map Ropp) K)).
    { rewrite !map_map. apply map_ext_in. intros row Hr. symmetry. apply (in_order_map Ropp 0 0 (List.length domain)); [exact H|].
      exact (proj1 (Forall_forall _ _) Rk row Hr). }
    rewrite Q.
    rewrite (knn_rows d).
    - f_equal. apply (knn_order topk Ht d); [exact Ro|now apply neg_rect|now rewrite <- E|exact Nk].
    - apply rect_order; [now rewrite <- E|exact Ro].
    - apply Forall_map, Forall_map. eapply Forall_impl; [|exact Rk]. intros row Hr. rewrite in_order_length. exact (order_length _ _ H).
    - exact (eq_ind_r (fun n => order_of n p) H (eq_trans (map_length _ _) (eq_trans (map_length _ _) Lk))).
    - apply Forall_map. assert (Rn := neg_rect _ _ Rk). apply Forall_forall. intros row Hr.
      pose proof (proj1 (Forall_forall _ _) Nk row Hr) as Nr. pose proof (proj1 (Forall_forall _ _) Rn row Hr) as Lr. cbv beta in Lr.
      apply (Permutation_NoDup (l := row)); [|exact Nr]. apply Permutation_sym, in_order_perm. now rewrite Lr.
  Qed.

  (** Another scale of the kernel. *)
  Theorem kernel_smoother_scale c domain observations num : 0 < c ->
    (num = None \/ num = Some (Z.of_nat (List.length domain))) ->
    kernel_smoother topk (fun x y => c * k x y) domain observations num = kernel_smoother topk k domain observations num.
  Proof.
    intros Hc C. unfold kernel_smoother. destruct (negb _); [reflexivity|]. unfold smoother. destruct (negb _); [reflexivity|].
    set (n := match num with None => _ | Some _ => _ end).
    assert (En : n = Z.of_nat (List.length domain)) by (destruct C as [-> | ->]; reflexivity). clearbody n. subst n.
    destruct (_ <=? 0)%Z; [reflexivity|]. destruct (_ <? _)%Z; [reflexivity|]. apply (f_equal Ok).
    unfold kernel_rows. rewrite !map_map. apply map_ext. intros x. unfold kept_coeff. rewrite Nat2Z.id, Nat.eqb_refl.
    set (row := map (k x) domain).
    assert (Er : map (fun y => c * k x y) domain = map (fun v => c * v) row) by (unfold row; now rewrite map_map).
    rewrite Er. assert (S : sum (map (fun v => c * v) row) = c * sum row).
    { rewrite (sum_map_scal c (fun v => v)), map_id. reflexivity. }
    unfold smoother_row. rewrite S.
    destruct (Req_EM_T (sum row) 0) as [Z0|Z0]; destruct (Req_EM_T (c * sum row) 0) as [Z1|Z1].
    - reflexivity.
    - elim Z1. rewrite Z0. ring.
    - elim Z0. apply Rmult_integral in Z1. destruct Z1; [lra|assumption].
    - apply (f_equal Some). apply map_ext. intros j. f_equal. unfold weights. rewrite S, map_map. apply map_ext. intros v. field. lra.
  Qed.
  Theorem kernel_smoother_affine A b d domain observations num : rect d A -> List.length b = List.length A -> rect d observations ->
    kernel_smoother topk k domain (map (affine A b) observations) num =
    answers (map (option_map (affine A b))) (kernel_smoother topk k domain observations num).
  Proof.
    intros RA Hb Ro. unfold kernel_smoother. rewrite map_length. destruct (negb _); [reflexivity|].
    apply (smoother_affine topk A b d RA Hb); [exact Ro|apply kernel_rows_rect].
  Qed.
  Theorem kernel_knn_affine A b d domain observations num : rect d A -> List.length b = List.length A -> rect d observations ->
    kernel_knn topk k domain (map (affine A b) observations) num =
    answers (map (affine A b)) (kernel_knn topk k domain observations num).
  Proof.
    intros RA Hb Ro. unfold kernel_knn. rewrite map_length. destruct (negb _); [reflexivity|].
    apply (knn_affine topk Ht A b d RA Hb); [exact Ro|apply neg_rect, kernel_rows_rect].
  Qed.
End Kernel.

(** At equal distances, the answer depends on the order. *)
Theorem knn_tie topk : selects_largest topk -> exists dists observations p, rect 1 observations /\ rect 2 dists /\
  order_of 2 p /\ is_ok (knn topk 2 dists observations 1) = true /\
  knn topk 2 (map (in_order 0 p) dists) (in_order [] p observations) 1 <> knn topk 2 dists observations 1.
Proof.
  intros Ht. exists [[0; 0]], [[1]; [2]], [1; 0]%nat.
  split; [repeat constructor|]. split; [repeat constructor|]. split; [apply perm_swap|]. split; [reflexivity|].
  intros Q. cbn [map in_order nth] in Q. unfold knn in Q. cbn [List.length Nat.eqb negb] in Q.
  change (Z.of_nat 2 <? 1)%Z with false in Q. change (1 <=? 0)%Z with false in Q. cbv iota in Q. change (Z.to_nat 1) with 1%nat in Q.
  destruct (shifted_by [[0; 0]]) as (c & Ec). rewrite Ec in Q. cbn [map] in Q. unfold knn_row in Q. cbn [map] in Q.
  destruct (Ht [- (0 + c); - (0 + c)] 1%nat ltac:(cbn; lia)) as (_ & L & F & _).
  destruct (topk [- (0 + c); - (0 + c)] 1%nat) as [|i [|]]; try discriminate L.
  pose proof (Forall_inv F) as Hi. cbn in Hi. injection Q as Q.
  destruct i as [|[|i]]; [| |lia]; cbn in Q; unfold mean in Q; cbn in Q; apply (f_equal (hd 0)) in Q; cbn in Q; lra.
Qed.
