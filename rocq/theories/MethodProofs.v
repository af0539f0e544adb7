(** Pre-image methods: proofs. *)
From Coq Require Import Permutation Sorted.
From Verif Require Import Base RVec RVecProofs Method MethodSpec.
Open Scope R_scope.

(** * A way to choose the largest values *)
Fixpoint insert_by (row : vec) (i : nat) (l : list nat) : list nat :=
  match l with
  | [] => [i]
  | j :: l' => if Rle_dec (nth j row 0) (nth i row 0) then i :: l else j :: insert_by row i l'
  end.
Definition sort_by (row : vec) (l : list nat) : list nat := fold_right (insert_by row) [] l.
Definition first_largest (row : vec) (k : nat) : list nat := firstn k (sort_by row (seq 0 (length row))).

Lemma insert_by_perm row i l : Permutation.Permutation (i :: l) (insert_by row i l).
Proof.
  induction l as [|j l IH]; [reflexivity|]. cbn [insert_by]. destruct (Rle_dec _ _); [reflexivity|].
  rewrite Permutation.perm_swap. now constructor.
Qed.
Lemma sort_by_perm row l : Permutation.Permutation l (sort_by row l).
Proof.
  induction l as [|i l IH]; [constructor|]. cbn [sort_by fold_right]. rewrite <- insert_by_perm. now constructor.
Qed.
Definition above (row : vec) (a b : nat) : Prop := nth b row 0 <= nth a row 0.
Lemma insert_by_sorted row i l : Sorted.StronglySorted (above row) l -> Sorted.StronglySorted (above row) (insert_by row i l).
Proof.
  induction 1 as [|j l S IH F]; [repeat constructor|]. cbn [insert_by]. destruct (Rle_dec _ _) as [H|H].
  - constructor; [now constructor|]. constructor; [exact H|]. eapply Forall_impl; [|exact F]. intros b Hb. unfold above in *. lra.
  - constructor; [exact IH|]. apply Forall_forall. intros b Hb.
    apply (Permutation.Permutation_in _ (Permutation.Permutation_sym (insert_by_perm row i l))) in Hb.
    destruct Hb as [<-|Hb]; [unfold above; lra|]. exact (proj1 (Forall_forall _ _) F b Hb).
Qed.
Lemma sort_by_sorted row l : Sorted.StronglySorted (above row) (sort_by row l).
Proof. induction l as [|i l IH]; [constructor|]. cbn [sort_by fold_right]. now apply insert_by_sorted. Qed.
Lemma sorted_split {A} (P : A -> A -> Prop) l k a b : Sorted.StronglySorted P l -> In a (firstn k l) -> In b (skipn k l) -> P a b.
Proof.
  intros S. revert k. induction S as [|x l S IH F]; intros [|k]; cbn; try contradiction.
  intros [<-|Ha] Hb; [|now apply (IH k)].
  apply (proj1 (Forall_forall _ _) F). rewrite <- (firstn_skipn k l). apply in_or_app. now right.
Qed.
Lemma first_largest_ok : selects_largest first_largest.
Proof.
  intros row k Hk. unfold first_largest. set (l := sort_by row (seq 0 (length row))).
  pose proof (sort_by_perm row (seq 0 (length row)) : Permutation.Permutation _ l) as P.
  assert (L : length l = length row) by (rewrite <- (Permutation.Permutation_length P); apply seq_length).
  assert (N : NoDup l) by (eapply Permutation.Permutation_NoDup; [exact P|apply seq_NoDup]).
  assert (I : forall i, In i l <-> (i < length row)%nat).
  { intros i. split; intros H.
    - apply (Permutation.Permutation_in _ (Permutation.Permutation_sym P)), in_seq in H. lia.
    - apply (Permutation.Permutation_in _ P), in_seq. lia. }
  split; [|split; [|split]].
  - rewrite <- (firstn_skipn k l) in N. clear - N. induction (firstn k l) as [|a m IH]; [constructor|].
    inversion N as [|? ? H1 H2]; subst. constructor; [|now apply IH]. intros H. apply H1, in_or_app. now left.
  - rewrite firstn_length, L. lia.
  - apply Forall_forall. intros i Hi. apply I. rewrite <- (firstn_skipn k l). apply in_or_app. now left.
  - intros a b Ha Hb Nb. apply (sorted_split (above row) l k a b); [apply sort_by_sorted|exact Ha|].
    apply I in Hb. rewrite <- (firstn_skipn k l) in Hb. apply in_app_or in Hb as [Hb|Hb]; [contradiction|exact Hb].
Qed.

(** * Nearest neighbours *)
Lemma nth_map_opp row i : nth i (map Ropp row) 0 = - nth i row 0.
Proof. rewrite <- Ropp_0 at 1. apply (map_nth Ropp). Qed.
Lemma largest_nearest row k idx : largest (map Ropp row) k idx -> nearest row k idx.
Proof.
  intros (H1 & H2 & H3 & H4). rewrite map_length in H3, H4. split; [exact H1|]. split; [exact H2|]. split; [exact H3|].
  intros a b Ha Hb Nb. specialize (H4 a b Ha Hb Nb). rewrite !nth_map_opp in H4. lra.
Qed.
Lemma nearest_shift row c k idx : nearest (map (fun v => v + c) row) k idx <-> nearest row k idx.
Proof.
  assert (N : forall i, (i < length row)%nat -> nth i (map (fun v => v + c) row) 0 = nth i row 0 + c).
  { intros i Hi. rewrite (nth_indep _ 0 (0 + c)) by (now rewrite map_length). apply (map_nth (fun v => v + c)). }
  unfold nearest. rewrite map_length. split; intros (H1 & H2 & H3 & H4); (split; [exact H1|]); (split; [exact H2|]); (split; [exact H3|]);
    intros a b Ha Hb Nb; specialize (H4 a b Ha Hb Nb); pose proof (proj1 (Forall_forall _ _) H3 a Ha) as La; cbv beta in La;
    rewrite !N in * by assumption; lra.
Qed.
Lemma pick_rect d observations idx : rect d observations -> Forall (fun i => (i < length observations)%nat) idx ->
  rect d (pick observations idx).
Proof.
  intros R F. unfold pick. apply Forall_map. eapply Forall_impl; [|exact F]. intros i Hi. now apply (rect_nth d).
Qed.
Lemma pick_column observations idx j : column j (pick observations idx) = map (fun i => nth j (nth i observations []) 0) idx.
Proof. unfold column, pick. now rewrite map_map. Qed.
Lemma mean_between l lo hi : l <> [] -> Forall (fun v => lo <= v <= hi) l -> lo <= mean l <= hi.
Proof.
  intros N F. pose proof (INR_length_pos l N) as P. pose proof (mean_sum l N) as E.
  assert (A : INR (length l) * lo <= sum l <= INR (length l) * hi).
  { rewrite <- (sum_map_const lo l), <- (sum_map_const hi l). rewrite <- (map_id l) at 2 3.
    pose proof (proj1 (Forall_forall _ _) F) as G. split; apply sum_le_map; intros x Hx; specialize (G x Hx); cbv beta in G; lra. }
  split; apply (Rmult_le_reg_l (INR (length l))); lra.
Qed.

Section Knn.
  Variable topk : vec -> nat -> list nat.
  Hypothesis Ht : selects_largest topk.

  Lemma knn_row_spec d observations k row : rect d observations -> length row = length observations ->
    (1 <= k <= length row)%nat ->
    exists idx, nearest row k idx /\ length (knn_row topk observations k row) = d /\
      forall j, (j < d)%nat -> nth j (knn_row topk observations k row) 0 = mean_at observations idx j.
  Proof.
    intros R L Hk. pose proof (Ht (map Ropp row) k ltac:(now rewrite map_length)) as T. apply largest_nearest in T.
    exists (topk (map Ropp row) k). split; [exact T|]. destruct T as (_ & T2 & T3 & _). rewrite L in T3.
    set (idx := topk (map Ropp row) k) in *.
    pose proof (pick_rect d observations idx R T3) as Rp.
    assert (Np : pick observations idx <> []) by (destruct idx; [cbn in T2; lia|discriminate]).
    pose proof (rect_width d _ Rp Np) as W. unfold knn_row. fold idx. split; [now rewrite colwise_length|].
    intros j Hj. rewrite colwise_nth by (now rewrite W). now rewrite pick_column.
  Qed.
  Theorem knn_mean d cols dists observations num : rect d observations -> rect cols dists -> dists <> [] ->
    cols = length observations -> (1 <= num <= Z.of_nat cols)%Z ->
    exists out, knn topk cols dists observations num = Ok out /\ length out = length dists /\
    forall r, (r < length dists)%nat -> length (nth r out []) = d /\
      exists idx, nearest (nth r dists []) (Z.to_nat num) idx /\
        forall j, (j < d)%nat -> nth j (nth r out []) 0 = mean_at observations idx j.
  Proof.
    intros Ro Rd Nd Hc Hn. unfold knn.
    rewrite (proj2 (Nat.eqb_eq _ _) Hc). cbn [negb]. rewrite (proj2 (Z.ltb_ge _ _)) by lia. rewrite (proj2 (Z.leb_gt _ _)) by lia.
    exists (map (knn_row topk observations (Z.to_nat num)) (shifted dists)).
    split; [destruct dists; [now elim Nd|reflexivity]|].
    assert (Ls : length (shifted dists) = length dists) by (unfold shifted; destruct (Rle_dec _ _); [apply map_length|reflexivity]).
    split; [rewrite map_length; exact Ls|]. intros r Hr.
    assert (Lr : length (nth r dists []) = cols) by (now apply rect_nth).
    assert (S : exists c, nth r (shifted dists) [] = map (fun v => v + c) (nth r dists [])).
    { unfold shifted. destruct (Rle_dec _ _).
      - exists (- lmin (concat dists)). rewrite (nth_indep _ [] (map (fun v => v - lmin (concat dists)) [])) by (now rewrite map_length).
        exact (map_nth (map (fun v => v - lmin (concat dists))) dists [] r).
      - exists 0. rewrite <- (map_id (nth r dists [])) at 1. apply map_ext. intros v. ring. }
    destruct S as (c & S).
    destruct (knn_row_spec d observations (Z.to_nat num) (nth r (shifted dists) []) Ro) as (idx & N & L & V).
    { rewrite S, map_length. congruence. }
    { rewrite S, map_length, Lr. lia. }
    rewrite S in N. pose proof (proj1 (nearest_shift _ _ _ _) N) as N1.
    assert (E : nth r (map (knn_row topk observations (Z.to_nat num)) (shifted dists)) [] =
                knn_row topk observations (Z.to_nat num) (nth r (shifted dists) [])).
    { rewrite (nth_indep _ [] (knn_row topk observations (Z.to_nat num) [])) by (now rewrite map_length, Ls). apply map_nth. }
    rewrite E. split; [exact L|]. exists idx. split; [exact N1|exact V].
  Qed.
  Lemma mean_at_range d observations idx j n k : rect d observations -> (j < d)%nat -> nearest n k idx -> length n = length observations ->
    (1 <= k)%nat -> lmin (column j observations) <= mean_at observations idx j <= lmax (column j observations).
  Proof.
    intros R Hj (_ & N2 & N3 & _) L Hk. unfold mean_at. apply mean_between.
    - destruct idx; [cbn in N2; lia|discriminate].
    - apply Forall_map. eapply Forall_impl; [|exact N3]. intros i Hi. cbv beta in Hi. rewrite L in Hi.
      assert (I : In (nth j (nth i observations []) 0) (column j observations)).
      { apply (in_map (fun r => nth j r 0)). now apply nth_In. }
      split; [now apply lmin_le|now apply lmax_ge].
  Qed.
  Theorem knn_range d cols dists observations num out : rect d observations -> rect cols dists -> dists <> [] ->
    cols = length observations -> knn topk cols dists observations num = Ok out ->
    forall r j, (r < length dists)%nat -> (j < d)%nat ->
      lmin (column j observations) <= nth j (nth r out []) 0 <= lmax (column j observations).
  Proof.
    intros Ro Rd Nd Hc H r j Hr Hj.
    assert (Hn : (1 <= num <= Z.of_nat cols)%Z).
    { unfold knn in H. destruct (negb _); [discriminate|]. destruct (Z.of_nat cols <? num)%Z eqn:A; [discriminate|].
      destruct (num <=? 0)%Z eqn:B; [discriminate|]. apply Z.ltb_ge in A. apply Z.leb_gt in B. lia. }
    destruct (knn_mean d cols dists observations num Ro Rd Nd Hc Hn) as (out' & E & _ & F). rewrite E in H. injection H as ->.
    destruct (F r Hr) as (_ & idx & N & V). rewrite (V j Hj).
    apply (mean_at_range d observations idx j (nth r dists []) (Z.to_nat num)); auto; [|lia].
    rewrite <- Hc. now apply rect_nth.
  Qed.
  Theorem knn_rejects cols dists observations num :
    is_ok (knn topk cols dists observations num) = true <->
    cols = length observations /\ (1 <= num <= Z.of_nat cols)%Z /\ dists <> [].
  Proof.
    unfold knn. destruct (Nat.eqb cols (length observations)) eqn:A; cbn [negb].
    2:{ apply Nat.eqb_neq in A. split; [discriminate|]. intros (H & _). contradiction. }
    apply Nat.eqb_eq in A. destruct (Z.of_nat cols <? num)%Z eqn:B.
    { apply Z.ltb_lt in B. split; [discriminate|]. intros (_ & H & _). lia. }
    apply Z.ltb_ge in B. destruct (num <=? 0)%Z eqn:C.
    { apply Z.leb_le in C. split; [discriminate|]. intros (_ & H & _). lia. }
    apply Z.leb_gt in C. destruct dists as [|r dists].
    - split; [discriminate|]. intros (_ & _ & H). now elim H.
    - split; [|reflexivity]. intros _. split; [exact A|]. split; [lia|discriminate].
  Qed.
End Knn.

(** * Smoother *)
Lemma dot_weights_sum w (l : vec) c : length w = length l -> Forall (fun v => v = c) l -> dot w l = c * sum w.
Proof.
  intros L F. revert w L. induction F as [|x l -> F IH]; intros [|a w] L; try discriminate.
  - unfold dot. cbn [zipw]. unfold sum. cbn. ring.
  - unfold dot in *. cbn [zipw]. rewrite !sum_cons, IH by (now injection L). ring.
Qed.
Lemma dot_between w (l : vec) lo hi : length w = length l -> Forall (fun v => 0 <= v) w -> Forall (fun v => lo <= v <= hi) l ->
  lo * sum w <= dot w l <= hi * sum w.
Proof.
  intros L W F. revert w L W. induction F as [|x l Hx F IH]; intros [|a w] L W; try discriminate.
  - unfold dot. cbn [zipw]. unfold sum. cbn. lra.
  - inversion W as [|? ? Ha W']; subst. unfold dot in *. cbn [zipw]. rewrite !sum_cons.
    specialize (IH w ltac:(now injection L) W'). nra.
Qed.
Lemma scatter_length row idx : length (scatter row idx) = length row.
Proof. unfold scatter. now rewrite map_length, seq_length. Qed.
Lemma scatter_nth row idx i : (i < length row)%nat -> nth i (scatter row idx) 0 = if existsb (Nat.eqb i) idx then nth i row 0 else 0.
Proof.
  intros H. unfold scatter.
  rewrite (nth_indep _ 0 ((fun i => if existsb (Nat.eqb i) idx then nth i row 0 else 0) 0%nat)) by (now rewrite map_length, seq_length).
  rewrite (map_nth (fun i => if existsb (Nat.eqb i) idx then nth i row 0 else 0)), seq_nth by exact H. reflexivity.
Qed.
Lemma sum_pos l : Forall (fun v => 0 <= v) l -> Exists (fun v => 0 < v) l -> 0 < sum l.
Proof.
  intros F E. pose proof (sum_nonneg l F) as S. destruct (Req_EM_T (sum l) 0) as [Z|Z]; [|lra].
  apply (sum_zero_nonneg l F) in Z. apply Exists_exists in E as (x & Ix & Hx).
  pose proof (proj1 (Forall_forall _ _) Z x Ix). cbv beta in *. lra.
Qed.
Lemma existsb_eqb i idx : existsb (Nat.eqb i) idx = true <-> In i idx.
Proof.
  rewrite existsb_exists. split; [intros (x & Hx & E); apply Nat.eqb_eq in E; now subst|].
  intros H. exists i. split; [exact H|apply Nat.eqb_refl].
Qed.

Section Smooth.
  Variable topk : vec -> nat -> list nat.
  Hypothesis Ht : selects_largest topk.

  Lemma kept_shape cols num row : length row = cols -> length (kept_coeff topk cols num row) = cols.
  Proof. intros L. unfold kept_coeff. destruct (Nat.eqb num cols); [exact L|]. now rewrite scatter_length. Qed.
  Lemma kept_nonneg cols num row : Forall (fun v => 0 <= v) row -> Forall (fun v => 0 <= v) (kept_coeff topk cols num row).
  Proof.
    intros F. unfold kept_coeff. destruct (Nat.eqb num cols); [exact F|]. unfold scatter. apply Forall_map, Forall_forall.
    intros i Hi. apply in_seq in Hi. destruct (existsb _ _); [|lra]. apply (proj1 (Forall_forall _ _) F), nth_In. lia.
  Qed.
  (** The coefficients kept are the [num] largest. *)
  Lemma kept_largest cols num row : length row = cols -> (1 <= num <= cols)%nat ->
    exists idx, largest row num idx /\ forall i, (i < cols)%nat ->
      (In i idx -> nth i (kept_coeff topk cols num row) 0 = nth i row 0) /\
      (~ In i idx -> nth i (kept_coeff topk cols num row) 0 = 0).
  Proof.
    intros L H. unfold kept_coeff. destruct (Nat.eqb num cols) eqn:E.
    - apply Nat.eqb_eq in E. subst num. exists (seq 0 cols). split.
      + split; [apply seq_NoDup|]. split; [apply seq_length|]. split.
        * apply Forall_forall. intros i Hi. apply in_seq in Hi. lia.
        * intros a b _ Hb Nb. elim Nb. apply in_seq. lia.
      + intros i Hi. split; [reflexivity|]. intros N. elim N. apply in_seq. lia.
    - exists (topk row num). split; [apply Ht; lia|]. intros i Hi. rewrite scatter_nth by lia.
      destruct (existsb (Nat.eqb i) (topk row num)) eqn:X.
      + split; [reflexivity|]. intros N. apply existsb_eqb in X. contradiction.
      + split; [|reflexivity]. intros I. apply existsb_eqb in I. congruence.
  Qed.
  Lemma kept_positive cols num row : length row = cols -> (1 <= num <= cols)%nat -> Forall (fun v => 0 <= v) row ->
    Exists (fun v => 0 < v) row -> 0 < sum (kept_coeff topk cols num row).
  Proof.
    intros L H F E. apply sum_pos; [now apply kept_nonneg|]. destruct (kept_largest cols num row L H) as (idx & (_ & L2 & L3 & L4) & K).
    apply Exists_exists in E as (x & Ix & Hx). apply (In_nth _ _ 0) in Ix as (i & Hi & <-).
    assert (G : exists a, (a < cols)%nat /\ In a idx /\ 0 < nth a row 0).
    { destruct (in_dec Nat.eq_dec i idx) as [I|N]; [exists i; repeat split; [lia|exact I|exact Hx]|].
      destruct idx as [|a idx]; [cbn in L2; lia|]. exists a. inversion L3 as [|? ? La _]; subst.
      specialize (L4 a i ltac:(now left) Hi N). split; [lia|]. split; [now left|lra]. }
    destruct G as (a & La & Ia & Ha). apply Exists_exists. exists (nth a (kept_coeff topk cols num row) 0).
    split; [apply nth_In; now rewrite kept_shape|]. rewrite (proj1 (K a La) Ia). exact Ha.
  Qed.
  Lemma weights_convex kept : Forall (fun v => 0 <= v) kept -> 0 < sum kept -> convex (length kept) (weights kept).
  Proof.
    intros F P. unfold weights. split; [apply map_length|]. split.
    - apply Forall_map. eapply Forall_impl; [|exact F]. intros v Hv. cbv beta in *. apply Rmult_le_pos; [exact Hv|]. now apply Rlt_le, Rinv_0_lt_compat.
    - transitivity (sum (map (fun v => / sum kept * (fun x => x) v) kept)); [apply sum_map_ext; intros; unfold Rdiv; ring|].
      rewrite sum_map_scal, map_id. field. lra.
  Qed.

  Theorem smoother_convex d cols coefficients observations num : rect d observations -> rect cols coefficients ->
    cols = length observations -> (1 <= num <= Z.of_nat cols)%Z ->
    exists out, smoother topk cols coefficients observations (Some num) = Ok out /\ length out = length coefficients /\
    forall r, (r < length coefficients)%nat -> let row := nth r coefficients [] in
      Forall (fun v => 0 <= v) row -> Exists (fun v => 0 < v) row ->
      exists w v, nth r out None = Some v /\ length v = d /\ convex cols w /\
        (exists idx, largest row (Z.to_nat num) idx /\ forall i, (i < cols)%nat -> ~ In i idx -> nth i w 0 = 0) /\
        (exists s, 0 < s /\ forall i, (i < cols)%nat -> nth i w 0 <> 0 -> nth i w 0 = nth i row 0 / s) /\
        forall j, (j < d)%nat -> nth j v 0 = dot w (column j observations).
  Proof.
    intros Ro Rc Hc Hn. unfold smoother. rewrite (proj2 (Nat.eqb_eq _ _) Hc). cbn [negb].
    rewrite (proj2 (Z.leb_gt _ _)) by lia. rewrite (proj2 (Z.ltb_ge _ _)) by lia.
    eexists. split; [reflexivity|]. split; [apply map_length|]. intros r Hr. set (row := nth r coefficients []). intros F E.
    assert (Lr : length row = cols) by (now apply rect_nth).
    assert (Hk : (1 <= Z.to_nat num <= cols)%nat) by lia.
    pose proof (kept_positive cols (Z.to_nat num) row Lr Hk F E) as P.
    set (kept := kept_coeff topk cols (Z.to_nat num) row) in *.
    assert (Lk : length kept = cols) by (now apply kept_shape).
    assert (No : observations <> []) by (intros ->; cbn in Hc; lia).
    pose proof (rect_width d observations Ro No) as W.
    exists (weights kept), (map (fun j => dot (weights kept) (column j observations)) (seq 0 (width observations))).
    split.
    { rewrite (nth_indep _ None (smoother_row observations (kept_coeff topk cols (Z.to_nat num) []))) by (now rewrite map_length).
      rewrite (map_nth (fun row => smoother_row observations (kept_coeff topk cols (Z.to_nat num) row))). fold row. fold kept.
      unfold smoother_row. destruct (Req_EM_T (sum kept) 0); [lra|reflexivity]. }
    split; [now rewrite map_length, seq_length|].
    split; [rewrite <- Lk; apply weights_convex; [now apply kept_nonneg|exact P]|].
    destruct (kept_largest cols (Z.to_nat num) row Lr Hk) as (idx & Li & K). fold kept in K.
    assert (Wn : forall i, (i < cols)%nat -> nth i (weights kept) 0 = nth i kept 0 / sum kept).
    { intros i Hi. unfold weights. rewrite (nth_indep _ 0 (0 / sum kept)) by (now rewrite map_length, Lk). apply (map_nth (fun v => v / sum kept)). }
    split.
    { exists idx. split; [exact Li|]. intros i Hi N. rewrite Wn, (proj2 (K i Hi) N) by exact Hi. unfold Rdiv. ring. }
    split.
    { exists (sum kept). split; [exact P|]. intros i Hi Nz. rewrite Wn in * by exact Hi.
      destruct (in_dec Nat.eq_dec i idx) as [I|N]; [now rewrite (proj1 (K i Hi) I)|].
      elim Nz. rewrite (proj2 (K i Hi) N). unfold Rdiv. ring. }
    intros j Hj. rewrite (nth_indep _ 0 (dot (weights kept) (column 0 observations))) by (now rewrite map_length, seq_length, W).
    rewrite (map_nth (fun j => dot (weights kept) (column j observations))), seq_nth by (now rewrite W). reflexivity.
  Qed.
  Lemma convex_range w observations j : convex (length observations) w -> observations <> [] ->
    lmin (column j observations) <= dot w (column j observations) <= lmax (column j observations).
  Proof.
    intros (L & F & S) N.
    assert (G : Forall (fun v => lmin (column j observations) <= v <= lmax (column j observations)) (column j observations)).
    { apply Forall_forall. intros v Hv. split; [now apply lmin_le|now apply lmax_ge]. }
    pose proof (dot_between w (column j observations) _ _ ltac:(now rewrite column_length) F G) as B. rewrite S in B. lra.
  Qed.
  Lemma convex_constant w observations j c : convex (length observations) w -> Forall (fun v => v = c) (column j observations) ->
    dot w (column j observations) = c.
  Proof. intros (L & F & S) H. rewrite (dot_weights_sum w _ c); [rewrite S; ring|now rewrite column_length|exact H]. Qed.

  (** A row of zeros has no pre-image. *)
  Theorem smoother_zero cols coefficients observations num out r : smoother topk cols coefficients observations num = Ok out ->
    (r < length coefficients)%nat -> Forall (fun v => v = 0) (nth r coefficients []) -> nth r out None = None.
  Proof.
    unfold smoother. destruct (negb _); [discriminate|]. destruct (_ <=? 0)%Z; [discriminate|].
    destruct (_ <? _)%Z; [discriminate|]. intros H Hr F. injection H as <-.
    set (n := Z.to_nat _). rewrite (nth_indep _ None (smoother_row observations (kept_coeff topk cols n []))) by (now rewrite map_length).
    rewrite (map_nth (fun row => smoother_row observations (kept_coeff topk cols n row))).
    assert (S : Forall (fun v => v = 0) (kept_coeff topk cols n (nth r coefficients []))).
    { unfold kept_coeff. destruct (Nat.eqb n cols); [exact F|]. unfold scatter. apply Forall_map, Forall_forall. intros i Hi.
      apply in_seq in Hi. destruct (existsb _ _); [|reflexivity]. apply (proj1 (Forall_forall _ _) F), nth_In. lia. }
    unfold smoother_row. destruct (Req_EM_T _ 0) as [_|N]; [reflexivity|]. elim N.
    clear - S. induction S as [|x l -> _ IH]; [reflexivity|]. rewrite sum_cons, IH. ring.
  Qed.
  Theorem smoother_all cols coefficients observations : (1 <= cols)%nat ->
    smoother topk cols coefficients observations None = smoother topk cols coefficients observations (Some (Z.of_nat cols)).
  Proof. reflexivity. Qed.
End Smooth.

(** * Iterations *)
Section Iter.
  Variable topk : vec -> nat -> list nat.
  Theorem preimage_k_level step stop sample level light cols k_image num_iter r level' :
    preimage_k topk step stop sample level light cols k_image num_iter = (r, level') ->
    (is_ok r = true -> level' = level) /\
    (is_ok r = false -> level' = lowered light level).
  Proof.
    unfold preimage_k. set (l := lowered light level).
    destruct (negb _); [intros H; injection H as <- <-; split; [discriminate|reflexivity]|].
    destruct (num_iter <=? 0)%Z; [intros H; injection H as <- <-; split; [discriminate|reflexivity]|].
    destruct k_image as [|k0 k_image]; [intros H; injection H as <- <-; split; [discriminate|reflexivity]|].
    destruct (bind _ _); intros H; injection H as <- <-; (split; [|intros Hf]); try discriminate; try reflexivity.
    intros _. unfold restored, l, lowered. destruct (Nat.ltb 1 level && light)%bool; reflexivity.
  Qed.
  Theorem preimage_phi_level step stop sample phi df level light cols phi_image num_iter r level' :
    preimage_phi topk step stop sample phi df level light cols phi_image num_iter = (r, level') ->
    (is_ok r = true -> level' = level) /\
    (is_ok r = false -> level' = lowered light level).
  Proof.
    unfold preimage_phi. set (l := lowered light level).
    destruct (negb _); [intros H; injection H as <- <-; split; [discriminate|reflexivity]|].
    destruct (num_iter <=? 0)%Z; [intros H; injection H as <- <-; split; [discriminate|reflexivity]|].
    destruct (negb _); [intros H; injection H as <- <-; split; [discriminate|reflexivity]|].
    destruct (bind _ _); intros H; injection H as <- <-; (split; [|intros Hf]); try discriminate; try reflexivity.
    intros _. unfold restored, l, lowered. destruct (Nat.ltb 1 level && light)%bool; reflexivity.
  Qed.
  Theorem preimage_phi_rejects step stop sample phi df level light phi_image num_iter : df <> length sample ->
    forall cols, is_ok (fst (preimage_phi topk step stop sample phi df level light cols phi_image num_iter)) = false.
  Proof.
    intros N cols. unfold preimage_phi. destruct (Nat.eqb cols (length sample)) eqn:E; cbn [negb]; [|reflexivity].
    destruct (num_iter <=? 0)%Z; [reflexivity|]. apply Nat.eqb_eq in E. subst cols.
    rewrite (proj2 (Nat.eqb_neq _ _)) by congruence. reflexivity.
  Qed.
  Theorem preimage_phi_accepts step stop sample phi df level light phi_image num_iter :
    (forall i x, exists x', step i x = Ok x') -> df = length sample -> sample <> [] -> phi_image <> [] -> (0 < num_iter)%Z ->
    is_ok (fst (preimage_phi topk step stop sample phi df level light df phi_image num_iter)) = true.
  Proof.
    intros Hs -> Ns Np Hn. unfold preimage_phi. rewrite Nat.eqb_refl. cbn [negb]. rewrite (proj2 (Z.leb_gt _ _)) by lia.
    assert (K : is_ok (knn topk (length sample) (map (map Ropp) (gram phi_image phi)) sample 1) = true).
    { apply knn_rejects. split; [reflexivity|]. split; [destruct sample; [now elim Ns|cbn; lia]|].
      destruct phi_image; [now elim Np|discriminate]. }
    destruct (knn _ _ _ _ _) as [x0|e]; [|discriminate K]. cbn [bind].
    assert (I : forall n i x, is_ok (iterate step stop i n x) = true).
    { induction n as [|n IH]; intros i x; [reflexivity|]. cbn [iterate]. destruct (Hs i x) as (x' & ->). cbn [bind]. destruct (stop i); [reflexivity|apply IH]. }
    specialize (I (Z.to_nat num_iter) 0%nat x0). destruct (iterate _ _ _ _ _); [reflexivity|discriminate I].
  Qed.
End Iter.
