(** The older smoother: proofs. *)
From Verif Require Import Base RVec RVecProofs Method MethodSpec MethodProofs OldPreimage SmoothSpec.
Open Scope R_scope.

Lemma sum_one (f : nat -> R) a : forall n s, (s <= a < s + n)%nat ->
  sum (map (fun i => if Nat.eqb i a then f i else 0) (seq s n)) = f a.
Proof.
  assert (Z : forall n s, ~ (s <= a < s + n)%nat -> sum (map (fun i => if Nat.eqb i a then f i else 0) (seq s n)) = 0).
  { induction n as [|n IH]; intros s H; [reflexivity|]. cbn [seq map]. rewrite sum_cons, IH by lia.
    destruct (Nat.eqb_spec s a); [lia|ring]. }
  induction n as [|n IH]; intros s H; [lia|]. cbn [seq map]. rewrite sum_cons.
  destruct (Nat.eqb_spec s a) as [e|ne].
  - rewrite Z by lia. subst. ring.
  - rewrite IH by lia. ring.
Qed.
Lemma sum_picked (f : nat -> R) n idx : NoDup idx -> Forall (fun i => (i < n)%nat) idx ->
  sum (map f idx) = sum (map (fun i => if existsb (Nat.eqb i) idx then f i else 0) (seq 0 n)).
Proof.
  induction idx as [|a idx IH]; intros N F.
  - cbn. rewrite sum_map_const. ring.
  - inversion N as [|? ? N1 N2]; subst. inversion F as [|? ? F1 F2]; subst.
    cbn [map]. rewrite sum_cons, (IH N2 F2), <- (sum_one f a n 0) by lia. rewrite <- sum_map_plus.
    apply sum_map_ext. intros i Hi. cbn [existsb]. destruct (Nat.eqb_spec i a) as [e|ne]; cbn [orb].
    + subst i. assert (X : existsb (Nat.eqb a) idx = false).
      { destruct (existsb (Nat.eqb a) idx) eqn:X; [|reflexivity]. apply existsb_eqb in X. contradiction. }
      rewrite X. ring.
    + ring.
Qed.
Lemma sum_scatter row idx : NoDup idx -> Forall (fun i => (i < length row)%nat) idx ->
  sum (scatter row idx) = sum (map (fun i => nth i row 0) idx).
Proof. intros N F. unfold scatter. symmetry. exact (sum_picked (fun i => nth i row 0) (length row) idx N F). Qed.
Lemma dot_scatter row idx y : NoDup idx -> Forall (fun i => (i < length row)%nat) idx -> length y = length row ->
  dot (scatter row idx) y = sum (map (fun i => nth i row 0 * nth i y 0) idx).
Proof.
  intros N F Ly. rewrite (dot_as_sum (length row)) by (try apply scatter_length; assumption).
  rewrite (sum_picked (fun i => nth i row 0 * nth i y 0) (length row) idx N F).
  apply sum_map_ext. intros i Hi. apply in_seq in Hi. rewrite scatter_nth by lia.
  destruct (existsb (Nat.eqb i) idx); ring.
Qed.
Lemma dot_maps (f g : nat -> R) idx : dot (map f idx) (map g idx) = sum (map (fun i => f i * g i) idx).
Proof. induction idx as [|a idx IH]; [reflexivity|]. cbn [map]. rewrite dot_cons, sum_cons, IH. reflexivity. Qed.
Lemma nth_column j m i : (i < length m)%nat -> nth i (column j m) 0 = entry m i j.
Proof. intros H. unfold column, entry. rewrite (nth_indep _ 0 (nth j [] 0)) by (rewrite map_length; exact H). exact (map_nth (fun r => nth j r 0) m [] i). Qed.

Lemma row_same order x row num cols : selects_largest (fun row k => firstn k (order row)) ->
  length row = cols -> length x = cols -> (0 < num < Z.of_nat cols)%Z ->
  old_row order cols x num row = smoother_row x (kept_coeff (fun row k => firstn k (order row)) cols (Z.to_nat num) row).
Proof.
  intros S Lr Lx H. unfold old_row, smoother_row, kept_coeff, slice.
  destruct (Z.leb_spec 0 num) as [_|bad]; [|lia].
  destruct (Nat.eqb_spec (Z.to_nat num) cols) as [bad|_]; [lia|].
  destruct (S row (Z.to_nat num) ltac:(lia)) as [N [L [F _]]].
  set (idx := firstn (Z.to_nat num) (order row)) in *.
  rewrite (sum_scatter row idx N F).
  assert (ne : idx <> []) by (intro e; rewrite e in L; cbn in L; lia).
  destruct idx as [|a t] eqn:E; [contradiction|]. rewrite <- E in *. clear E a t ne.
  destruct (Req_EM_T _ 0) as [z|z]; [reflexivity|]. apply (f_equal Some). apply map_ext_in. intros j _.
  unfold weights. rewrite !dot_div_l, (sum_scatter row idx N F). f_equal.
  rewrite dot_scatter by (try rewrite column_length; congruence || assumption).
  unfold pick, column. rewrite map_map, dot_maps. apply sum_map_ext. intros i Hi.
  rewrite Forall_forall in F. specialize (F i Hi).
  fold (column j x). rewrite (nth_column j x i) by lia. reflexivity.
Qed.

Section All.
  Variables (cols : nat) (c : mat).
  Hypothesis R : rect cols c.
  Notation s := (column_sums cols c).
  Lemma sums_length : length s = cols.
  Proof. unfold column_sums. now rewrite map_length, seq_length. Qed.
  Lemma sums_nth l : (l < cols)%nat -> nth l s 0 = sum (column l c).
  Proof.
    intros H. unfold column_sums. rewrite (nth_indep _ 0 (sum (column 0 c))) by (rewrite map_length, seq_length; exact H).
    rewrite (map_nth (fun l => sum (column l c)) (seq 0 cols) 0%nat l). now rewrite seq_nth.
  Qed.
  Lemma zero_sum : existsb (fun v => if Req_EM_T v 0 then true else false) s = true <->
    exists l, (l < cols)%nat /\ sum (column l c) = 0.
  Proof.
    rewrite existsb_exists. unfold column_sums. split.
    - intros [v [I Z]]. apply in_map_iff in I. destruct I as [l [<- I]]. apply in_seq in I.
      exists l. split; [lia|]. destruct (Req_EM_T _ 0) as [z|]; [exact z|discriminate].
    - intros [l [Hl Z]]. exists (sum (column l c)). split.
      + apply in_map_iff. exists l. split; [reflexivity|]. apply in_seq. lia.
      + destruct (Req_EM_T _ 0) as [_|z]; [reflexivity|contradiction].
  Qed.
  Lemma nonzero_sum : (forall l, (l < cols)%nat -> sum (column l c) <> 0) -> existsb (fun v => if Req_EM_T v 0 then true else false) s = false.
  Proof.
    intros H. destruct (existsb _ s) eqn:E; [|reflexivity]. apply zero_sum in E. destruct E as [l [Hl Z]]. elim (H l Hl Z).
  Qed.
  Lemma row_length row : In row c -> length row = cols.
  Proof. intros I. unfold rect in R. rewrite Forall_forall in R. exact (R row I). Qed.
  Lemma row_dot row x j : In row c -> length x = cols ->
    dot (zipw Rdiv row s) (column j x) = sum (map (fun l => nth l row 0 / sum (column l c) * entry x l j) (seq 0 cols)).
  Proof.
    intros I Lx. pose proof (row_length row I) as Lr.
    rewrite (dot_as_sum cols) by (rewrite ?column_length, ?zipw_length; congruence || rewrite sums_length; assumption).
    apply sum_map_ext. intros l Hl. apply in_seq in Hl.
    rewrite (zipw_nth Rdiv row s l 0 0 0) by (rewrite ?sums_length; lia). rewrite sums_nth by lia.
    rewrite nth_column by lia. reflexivity.
  Qed.
End All.
Definition old_matrix (cols d : nat) (c x : mat) : mat :=
  map (fun row => map (fun j => sum (map (fun l => nth l row 0 / sum (column l c) * entry x l j) (seq 0 cols))) (seq 0 d)) c.
Lemma old_matrix_entry cols d c x i j : (i < length c)%nat -> (j < d)%nat ->
  entry (old_matrix cols d c x) i j = sum (map (fun l => entry c i l / sum (column l c) * entry x l j) (seq 0 cols)).
Proof.
  intros Hi Hj. unfold entry at 1, old_matrix.
  set (f := fun row => map _ _). rewrite (nth_indep _ [] (f [])) by (rewrite map_length; exact Hi).
  rewrite (map_nth f c [] i). unfold f.
  set (g := fun j => sum _). rewrite (nth_indep _ 0 (g 0%nat)) by (rewrite map_length, seq_length; exact Hj).
  rewrite (map_nth g (seq 0 d) 0%nat j), seq_nth by exact Hj. reflexivity.
Qed.
Lemma old_matrix_shape cols d c x : length (old_matrix cols d c x) = length c /\ rect d (old_matrix cols d c x).
Proof.
  unfold old_matrix. split; [apply map_length|]. unfold rect. apply Forall_map, Forall_forall. intros row _. now rewrite map_length, seq_length.
Qed.
Lemma old_all_rows cols d c x : rect cols c -> length x = cols -> rect d x -> cols <> 0%nat ->
  (forall l, (l < cols)%nat -> sum (column l c) <> 0) -> old_all cols c x = map Some (old_matrix cols d c x).
Proof.
  intros R Lx Rx ne NZ. unfold old_all. rewrite (nonzero_sum cols c NZ). unfold old_matrix. rewrite map_map.
  apply map_ext_in. intros row I. apply (f_equal Some).
  rewrite (rect_width d x Rx) by (intro e; rewrite e in Lx; cbn in Lx; congruence).
  apply map_ext_in. intros j _. exact (row_dot cols c R row x j I Lx).
Qed.
Lemma entries_of_column c j : column j c = map (fun i => entry c i j) (seq 0 (length c)).
Proof.
  unfold column, entry. generalize c. clear c. induction c as [|r c IH]; [reflexivity|].
  cbn [length seq map nth]. f_equal. rewrite <- seq_shift, map_map. exact IH.
Qed.
(** Totals are kept. *)
Lemma old_total cols d c x j : length x = cols -> (j < d)%nat -> (forall l, (l < cols)%nat -> sum (column l c) <> 0) ->
  sum (column j (old_matrix cols d c x)) = sum (column j x).
Proof.
  intros Lx Hj NZ. rewrite (entries_of_column (old_matrix cols d c x)).
  rewrite (proj1 (old_matrix_shape cols d c x)).
  rewrite (sum_map_ext _ (fun i => sum (map (fun l => entry c i l / sum (column l c) * entry x l j) (seq 0 cols)))).
  2:{ intros i Hi. apply in_seq in Hi. apply old_matrix_entry; lia. }
  rewrite (sum_exchange (fun i l => entry c i l / sum (column l c) * entry x l j)).
  rewrite (entries_of_column x), Lx. apply sum_map_ext. intros l Hl. apply in_seq in Hl.
  rewrite (sum_map_ext _ (fun i => (entry x l j / sum (column l c)) * entry c i l)) by (intros i _; unfold Rdiv; ring).
  rewrite sum_map_scal, <- entries_of_column. field. apply NZ. lia.
Qed.

(** ** Against the smoother of [kerch.method] *)
Definition new_matrix (cols d : nat) (c x : mat) : mat :=
  map (fun row => map (fun j => sum (map (fun l => nth l row 0 / sum row * entry x l j) (seq 0 cols))) (seq 0 d)) c.
Lemma new_matrix_entry cols d c x i j : (i < length c)%nat -> (j < d)%nat ->
  entry (new_matrix cols d c x) i j = sum (map (fun l => entry c i l / sum (nth i c []) * entry x l j) (seq 0 cols)).
Proof.
  intros Hi Hj. unfold entry at 1, new_matrix.
  set (f := fun row => map _ _). rewrite (nth_indep _ [] (f [])) by (rewrite map_length; exact Hi).
  rewrite (map_nth f c [] i). unfold f.
  set (g := fun j => sum _). rewrite (nth_indep _ 0 (g 0%nat)) by (rewrite map_length, seq_length; exact Hj).
  rewrite (map_nth g (seq 0 d) 0%nat j), seq_nth by exact Hj. reflexivity.
Qed.
Lemma new_rows topk cols d c x : rect cols c -> length x = cols -> rect d x -> cols <> 0%nat ->
  (forall row, In row c -> sum row <> 0) -> smoother topk cols c x None = Ok (map Some (new_matrix cols d c x)).
Proof.
  intros R Lx Rx ne NZ. unfold smoother. rewrite Lx, Nat.eqb_refl. cbn [negb].
  destruct (Z.leb_spec (Z.of_nat cols) 0) as [bad|_]; [lia|].
  rewrite Z.ltb_irrefl, Nat2Z.id. apply (f_equal Ok). unfold new_matrix. rewrite map_map. apply map_ext_in. intros row I.
  unfold kept_coeff. rewrite Nat.eqb_refl. unfold smoother_row. destruct (Req_EM_T (sum row) 0) as [z|z]; [elim (NZ row I z)|].
  apply (f_equal Some). rewrite (rect_width d x Rx) by (intro e; rewrite e in Lx; cbn in Lx; congruence).
  apply map_ext_in. intros j _. pose proof (row_length cols c R row I) as Lr.
  rewrite (dot_as_sum cols) by (unfold weights; rewrite ?column_length, ?map_length; congruence).
  apply sum_map_ext. intros l Hl. apply in_seq in Hl. rewrite nth_column by lia. f_equal.
  unfold weights. rewrite (nth_indep _ 0 (0 / sum row)) by (rewrite map_length; lia).
  exact (map_nth (fun v => v / sum row) row 0 l).
Qed.
Definition spike (cols l : nat) : mat := map (fun i => [if Nat.eqb i l then 1 else 0]) (seq 0 cols).
Lemma spike_shape cols l : length (spike cols l) = cols /\ rect 1 (spike cols l).
Proof. unfold spike. split; [now rewrite map_length, seq_length|]. unfold rect. apply Forall_map, Forall_forall. reflexivity. Qed.
Lemma spike_entry cols l i : (i < cols)%nat -> entry (spike cols l) i 0 = if Nat.eqb i l then 1 else 0.
Proof.
  intros H. unfold entry, spike. set (f := fun i => [if Nat.eqb i l then 1 else 0]).
  rewrite (nth_indep _ [] (f 0%nat)) by (rewrite map_length, seq_length; exact H).
  rewrite (map_nth f (seq 0 cols) 0%nat i), seq_nth by exact H. reflexivity.
Qed.
Lemma spike_sum cols l (w : nat -> R) : (l < cols)%nat ->
  sum (map (fun i => w i * entry (spike cols l) i 0) (seq 0 cols)) = w l.
Proof.
  intros H. rewrite <- (sum_one w l cols 0) by lia. apply sum_map_ext. intros i Hi. apply in_seq in Hi.
  rewrite spike_entry by lia. destruct (Nat.eqb i l); ring.
Qed.
Lemma map_Some_inj {A} (l m : list A) : map Some l = map Some m -> l = m.
Proof.
  revert m. induction l as [|a l IH]; intros [|b m] E; cbn in E; try discriminate; [reflexivity|].
  injection E as E1 E2. f_equal; [exact E1|exact (IH m E2)].
Qed.
Lemma agree_iff cols c : rect cols c -> cols <> 0%nat ->
  (forall row, In row c -> sum row <> 0) -> (forall l, (l < cols)%nat -> sum (column l c) <> 0) ->
  (forall order topk num d x, (Z.of_nat cols <= num)%Z -> length x = cols -> rect d x ->
     old_smoother order cols c x num = smoother topk cols c x None) <->
  (forall i l, (i < length c)%nat -> (l < cols)%nat -> entry c i l <> 0 -> sum (nth i c []) = sum (column l c)).
Proof.
  intros R ne NZr NZc. split.
  - intros H i l Hi Hl Z. destruct (spike_shape cols l) as [A B].
    specialize (H (fun _ => []) (fun _ _ => []) (Z.of_nat cols) 1%nat (spike cols l) ltac:(lia) A B).
    rewrite (new_rows _ cols 1 c _ R A B ne NZr) in H. unfold old_smoother in H. rewrite A, Nat.eqb_refl in H. cbn [negb] in H.
    rewrite Z.leb_refl in H. rewrite (old_all_rows cols 1 c _ R A B ne NZc) in H. injection H as H. apply map_Some_inj in H.
    apply (f_equal (fun m => entry m i 0)) in H. rewrite old_matrix_entry, new_matrix_entry in H by lia.
    rewrite (spike_sum cols l (fun l => entry c i l / sum (column l c))), (spike_sum cols l (fun l => entry c i l / sum (nth i c []))) in H by exact Hl.
    assert (P : sum (nth i c []) <> 0) by (apply NZr, nth_In; exact Hi). specialize (NZc l Hl).
    assert (E : / sum (column l c) = / sum (nth i c [])) by (apply (Rmult_eq_reg_l (entry c i l)); assumption).
    rewrite <- (Rinv_involutive (sum (nth i c []))), <- (Rinv_involutive (sum (column l c))), E by assumption. reflexivity.
  - intros H order topk num d x Hn Lx Rx. rewrite (new_rows topk cols d c x R Lx Rx ne NZr).
    unfold old_smoother. rewrite Lx, Nat.eqb_refl. cbn [negb]. destruct (Z.leb_spec (Z.of_nat cols) num) as [_|bad]; [|lia].
    rewrite (old_all_rows cols d c x R Lx Rx ne NZc). apply (f_equal (fun m => Ok (map Some m))).
    apply (nth_ext _ _ [] []); [unfold old_matrix, new_matrix; now rewrite !map_length|].
    intros i Hi. unfold old_matrix in Hi. rewrite map_length in Hi.
    apply (vec_ext d).
    + unfold old_matrix. set (f := fun row => map _ _). rewrite (nth_indep _ [] (f [])) by (rewrite map_length; exact Hi).
      rewrite (map_nth f c [] i). unfold f. now rewrite map_length, seq_length.
    + unfold new_matrix. set (f := fun row => map _ _). rewrite (nth_indep _ [] (f [])) by (rewrite map_length; exact Hi).
      rewrite (map_nth f c [] i). unfold f. now rewrite map_length, seq_length.
    + intros j Hj. change (entry (old_matrix cols d c x) i j = entry (new_matrix cols d c x) i j).
      rewrite old_matrix_entry, new_matrix_entry by assumption. apply sum_map_ext. intros l Hl. apply in_seq in Hl.
      destruct (Req_EM_T (entry c i l) 0) as [z|z]; [rewrite z; unfold Rdiv; ring|].
      rewrite (H i l Hi ltac:(lia) z). reflexivity.
Qed.
(** One point. *)
Lemma one_point order row x d num : length x = length row -> rect d x -> row <> [] -> Forall (fun v => v <> 0) row ->
  (Z.of_nat (length row) <= num)%Z ->
  old_smoother order (length row) [row] x num = Ok [Some (map (fun j => sum (column j x)) (seq 0 d))].
Proof.
  intros Lx Rx ne NZ Hn. unfold old_smoother. rewrite Lx, Nat.eqb_refl. cbn [negb]. destruct (Z.leb_spec (Z.of_nat (length row)) num) as [_|bad]; [|lia].
  assert (Z : forall l, sum (column l [row]) = nth l row 0) by (intro l; cbn; ring).
  assert (NZ' : forall l, (l < length row)%nat -> nth l row 0 <> 0).
  { intros l Hl. rewrite Forall_forall in NZ. apply NZ, nth_In, Hl. }
  assert (R : rect (length row) [row]) by (constructor; [reflexivity|constructor]).
  rewrite (old_all_rows (length row) d [row] x R Lx Rx).
  2:{ destruct row; [contradiction|discriminate]. }
  2:{ intros l Hl. rewrite Z. exact (NZ' l Hl). }
  cbn [old_matrix map]. do 3 f_equal. apply map_ext. intros j. rewrite entries_of_column, Lx. apply sum_map_ext. intros l Hl.
  apply in_seq in Hl. rewrite Z. field. apply NZ'. lia.
Qed.
Lemma no_neighbours order cols c x : cols <> 0%nat -> length x = cols -> c <> [] ->
  old_smoother order cols c x 0 = Ok (map (fun _ => Some (map (fun _ => 0) (seq 0 (width x)))) c).
Proof.
  intros ne Lx nc. unfold old_smoother. rewrite Lx, Nat.eqb_refl. cbn [negb]. destruct (Z.leb_spec (Z.of_nat cols) 0) as [bad|_]; [lia|].
  destruct c as [|r c]; [contradiction|]. reflexivity.
Qed.
Lemma few_same order cols c x num : selects_largest (fun row k => firstn k (order row)) -> rect cols c -> c <> [] ->
  length x = cols -> (0 < num < Z.of_nat cols)%Z ->
  old_smoother order cols c x num = smoother (fun row k => firstn k (order row)) cols c x (Some num).
Proof.
  intros S R nc Lx H. unfold old_smoother, smoother. rewrite Lx, Nat.eqb_refl. cbn [negb].
  destruct (Z.leb_spec (Z.of_nat cols) num) as [bad|_]; [lia|].
  destruct (Z.leb_spec num 0) as [bad|_]; [lia|]. destruct (Z.ltb_spec (Z.of_nat cols) num) as [bad|_]; [lia|].
  destruct c as [|r c]; [contradiction|]. apply (f_equal Ok). apply map_ext_in. intros row I.
  apply row_same; try assumption. exact (row_length cols _ R row I).
Qed.
