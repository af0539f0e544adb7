(** Smoothing with every point: the mean, the spread and the sign. *)
From Verif Require Import Base RVec RVecProofs KernelR KernelRSpec Method KernelMethod SmoothSpec.
Open Scope R_scope.

Lemma map_seq_nth {A B} (f : A -> B) (l : list A) (d : A) : map f l = map (fun i => f (nth i l d)) (seq 0 (length l)).
Proof.
  induction l as [|a l IH]; [reflexivity|]. cbn [length seq map nth]. f_equal. rewrite IH, <- seq_shift, map_map. reflexivity.
Qed.

(** ** A table of similarities *)
Section Table.
  Variables (n : nat) (K : nat -> nat -> R).
  Notation L := (seq 0 n).
  Hypothesis sym : forall i l, In i L -> In l L -> K i l = K l i.
  Hypothesis nonneg : forall i l, In i L -> In l L -> 0 <= K i l.
  Notation w i := (sum (map (K i) L)).
  Hypothesis wpos : forall i, In i L -> 0 < w i.
  Variable y : nat -> R.
  Notation v i := (sum (map (fun l => K i l * y l) L) / w i).

  Lemma smoothed i : In i L -> w i * v i = sum (map (fun l => K i l * y l) L).
  Proof. intro I. pose proof (wpos i I). field. lra. Qed.
  Lemma columns_are_rows (f : nat -> R) :
    sum (map (fun i => sum (map (fun l => K i l * f l) L)) L) = sum (map (fun i => w i * f i) L).
  Proof.
    rewrite (sum_exchange (fun i l => K i l * f l)). apply sum_map_ext. intros l Hl.
    rewrite (sum_map_ext (fun i => K i l * f l) (fun i => f l * K l i)) by (intros i Hi; rewrite (sym i l Hi Hl); ring).
    rewrite sum_map_scal. change (sum (map (fun i => K l i) L)) with (w l). ring.
  Qed.
  Lemma table_mean : sum (map (fun i => w i * v i) L) = sum (map (fun i => w i * y i) L).
  Proof. rewrite (sum_map_ext _ (fun i => sum (map (fun l => K i l * y l) L))) by (intros i Hi; exact (smoothed i Hi)). apply columns_are_rows. Qed.
  Lemma row_gap c i : In i L ->
    sum (map (fun l => K i l * (y l - c) ^ 2) L) = w i * (v i - c) ^ 2 + sum (map (fun l => K i l * (y l - v i) ^ 2) L).
  Proof.
    intro Hi. pose proof (smoothed i Hi) as S. set (u := v i) in *.
    rewrite (sum_map_ext (fun l => K i l * (y l - c) ^ 2)
               (fun l => K i l * (y l - u) ^ 2 + ((u - c) * 2 * (K i l * y l) + ((u - c) * (u - c) - (u - c) * 2 * u) * K i l)))
      by (intros l _; ring).
    rewrite !sum_map_plus, !sum_map_scal, <- S. change (sum (map (fun x => K i x) L)) with (w i). ring.
  Qed.
  Lemma table_spread c :
    sum (map (fun i => w i * (y i - c) ^ 2) L) =
    sum (map (fun i => w i * (v i - c) ^ 2) L) + sum (map (fun i => sum (map (fun l => K i l * (y l - v i) ^ 2) L)) L).
  Proof.
    rewrite <- (columns_are_rows (fun l => (y l - c) ^ 2)), <- sum_map_plus.
    apply sum_map_ext. intros i Hi. exact (row_gap c i Hi).
  Qed.
  Lemma rest_nonneg : 0 <= sum (map (fun i => sum (map (fun l => K i l * (y l - v i) ^ 2) L)) L).
  Proof.
    apply sum_map_nonneg. intros i Hi. apply sum_map_nonneg. intros l Hl. apply Rmult_le_pos; [exact (nonneg i l Hi Hl)|]. apply pow2_ge_0.
  Qed.
  Lemma rest_zero : sum (map (fun i => sum (map (fun l => K i l * (y l - v i) ^ 2) L)) L) = 0 ->
    forall i l, In i L -> In l L -> 0 < K i l -> y l = v i.
  Proof.
    intros Z i l Hi Hl P.
    assert (NN : forall i', In i' L -> 0 <= sum (map (fun l => K i' l * (y l - v i') ^ 2) L)).
    { intros i' Hi'. apply sum_map_nonneg. intros l' Hl'. apply Rmult_le_pos; [exact (nonneg i' l' Hi' Hl')|]. apply pow2_ge_0. }
    assert (F := sum_zero_nonneg (map (fun i => sum (map (fun l => K i l * (y l - v i) ^ 2) L)) L)).
    rewrite Forall_forall in F. assert (Z1 : sum (map (fun l => K i l * (y l - v i) ^ 2) L) = 0).
    { assert (G : Forall (fun x => x = 0) (map (fun i => sum (map (fun l => K i l * (y l - v i) ^ 2) L)) L)).
      { apply F; [|exact Z]. intros x Hx. apply in_map_iff in Hx. destruct Hx as [i' [<- Hi']]. exact (NN i' Hi'). }
      rewrite Forall_forall in G. apply G. apply (in_map (fun i => sum (map (fun l => K i l * (y l - v i) ^ 2) L))). exact Hi. }
    set (u := v i) in *.
    assert (Z2 : K i l * (y l - u) ^ 2 = 0).
    { assert (G : Forall (fun x => x = 0) (map (fun l => K i l * (y l - u) ^ 2) L)).
      { apply sum_zero_nonneg; [|exact Z1]. rewrite Forall_forall. intros x Hx. apply in_map_iff in Hx. destruct Hx as [l' [<- Hl']].
        apply Rmult_le_pos; [exact (nonneg i l' Hi Hl')|]. apply pow2_ge_0. }
      rewrite Forall_forall in G. apply G. apply (in_map (fun l => K i l * (y l - u) ^ 2)). exact Hl. }
    apply Rmult_integral in Z2. destruct Z2 as [Z2|Z2]; [lra|]. nra.
  Qed.
  Lemma table_sign c : sum (map (fun i => w i * ((y i - c) * (v i - c))) L) =
    sum (map (fun i => (y i - c) * sum (map (fun l => (y l - c) * K i l) L)) L).
  Proof.
    apply sum_map_ext. intros i Hi. pose proof (smoothed i Hi) as S. set (u := v i) in *.
    rewrite (sum_map_ext (fun l => (y l - c) * K i l) (fun l => K i l * y l - c * K i l)) by (intros l _; ring).
    rewrite sum_map_minus, sum_map_scal, <- S. change (sum (map (fun x => K i x) L)) with (w i). ring.
  Qed.
End Table.

(** ** The smoother *)
Section Smooth.
  Variable topk : vec -> nat -> list nat.
  Variables (k : vec -> vec -> R) (domain observations : mat) (d : nat).
  Hypothesis S : similar_on k domain.
  Hypothesis Ro : rect d observations.
  Hypothesis Ln : length observations = length domain.
  Hypothesis ne : domain <> [].
  Notation n := (length domain).
  Notation L := (seq 0 n).
  Notation K := (fun i l => k (nth i domain []) (nth l domain [])).
  Notation w := (total k domain).

  Lemma total_row i : w i = sum (map (K i) L).
  Proof. unfold total. f_equal. apply map_seq_nth. Qed.
  Lemma inside i : In i L -> In (nth i domain []) domain.
  Proof. intro I. apply in_seq in I. apply nth_In. lia. Qed.
  Lemma K_sym i l : In i L -> In l L -> K i l = K l i.
  Proof. intros A B. exact (proj1 (S _ _ (inside i A) (inside l B))). Qed.
  Lemma K_nonneg i l : In i L -> In l L -> 0 <= K i l.
  Proof. intros A B. exact (proj1 (proj2 (S _ _ (inside i A) (inside l B)))). Qed.
  Lemma K_pos i : In i L -> 0 < sum (map (K i) L).
  Proof.
    intros A. assert (NN : 0 <= sum (map (K i) L)) by (apply sum_map_nonneg; intros l B; exact (K_nonneg i l A B)).
    destruct NN as [P|Z]; [exact P|]. exfalso. symmetry in Z.
    assert (F := sum_zero_nonneg (map (K i) L)). rewrite !Forall_forall in F.
    assert (G : K i i = 0).
    { apply F; [|exact Z | exact (in_map (K i) L i A)]. intros x Hx. apply in_map_iff in Hx. destruct Hx as [l [<- B]]. exact (K_nonneg i l A B). }
    pose proof (proj2 (proj2 (S _ _ (inside i A) (inside i A)))). lra.
  Qed.
  Definition smooth_value (i j : nat) : R := sum (map (fun l => K i l * entry observations l j) L) / sum (map (K i) L).
  Definition smooth_matrix : mat := map (fun i => map (smooth_value i) (seq 0 d)) L.
  Lemma smooth_entry i j : (i < n)%nat -> (j < d)%nat -> entry smooth_matrix i j = smooth_value i j.
  Proof.
    intros Hi Hj. unfold entry, smooth_matrix.
    rewrite (nth_indep _ [] (map (smooth_value 0) (seq 0 d))) by (rewrite map_length, seq_length; exact Hi).
    rewrite (map_nth (fun i => map (smooth_value i) (seq 0 d)) L 0%nat i), seq_nth by exact Hi.
    rewrite (nth_indep _ 0 (smooth_value (0 + i) 0)) by (rewrite map_length, seq_length; exact Hj).
    rewrite (map_nth (smooth_value (0 + i)) (seq 0 d) 0%nat j), seq_nth by exact Hj. reflexivity.
  Qed.
  Lemma observed_width : width observations = d.
  Proof.
    destruct observations as [|r o].
    - exfalso. destruct domain as [|x t]; [exact (ne eq_refl) | discriminate Ln].
    - cbn. inversion Ro as [|a b Hr _]. exact Hr.
  Qed.
  Lemma smoother_rows : kernel_smoother topk k domain observations None = Ok (map Some smooth_matrix).
  Proof.
    unfold kernel_smoother. rewrite Ln, Nat.eqb_refl. cbn [negb]. unfold smoother. rewrite Ln, Nat.eqb_refl. cbn [negb].
    assert (N : (0 < n)%nat) by (destruct domain; [destruct (ne eq_refl) | cbn; lia]).
    destruct (Z.leb_spec (Z.of_nat n) 0) as [H|_]; [lia|]. rewrite Z.ltb_irrefl. apply f_equal.
    unfold kernel_rows, smooth_matrix. rewrite !map_map. rewrite (map_seq_nth _ domain []). apply map_ext_in. intros i Hi.
    unfold kept_coeff. rewrite Nat2Z.id, Nat.eqb_refl. unfold smoother_row.
    pose proof (K_pos i Hi) as P. assert (E : sum (map (k (nth i domain [])) domain) = sum (map (K i) L)) by exact (total_row i).
    destruct (Req_EM_T (sum (map (k (nth i domain [])) domain)) 0) as [Z|_]; [rewrite E in Z; lra|].
    apply f_equal. rewrite observed_width. apply map_ext_in. intros j Hj.
    unfold weights. rewrite dot_div_l, E. unfold smooth_value. f_equal.
    rewrite (dot_as_sum n) by (rewrite ?map_length; unfold column; rewrite ?map_length; auto).
    apply sum_map_ext. intros l Hl. apply in_seq in Hl. f_equal.
    - rewrite (nth_indep _ 0 (k (nth i domain []) [])) by (rewrite map_length; lia). apply map_nth.
    - unfold column, entry. rewrite (nth_indep _ 0 ((fun r => nth j r 0) [])) by (rewrite map_length; exact (eq_ind_r (fun m => (l < m)%nat) (proj2 Hl) Ln)). apply (map_nth (fun r => nth j r 0)).
  Qed.
  Lemma smooth_shape : length smooth_matrix = n /\ rect d smooth_matrix.
  Proof.
    split; [unfold smooth_matrix; now rewrite map_length, seq_length|]. unfold rect, smooth_matrix. rewrite Forall_forall.
    intros r Hr. apply in_map_iff in Hr. destruct Hr as [i [<- _]]. now rewrite map_length, seq_length.
  Qed.
  Lemma weighted_smooth (f : R -> R) j : (j < d)%nat ->
    weighted k domain (fun i => f (entry smooth_matrix i j)) =
    sum (map (fun i => sum (map (K i) L) * f (smooth_value i j)) L).
  Proof.
    intro Hj. unfold weighted. apply sum_map_ext. intros i Hi. rewrite total_row. apply in_seq in Hi. rewrite smooth_entry by lia. reflexivity.
  Qed.
  Theorem smooth_mean j : (j < d)%nat ->
    weighted k domain (fun i => entry smooth_matrix i j) = weighted k domain (fun i => entry observations i j).
  Proof.
    intro Hj. rewrite (weighted_smooth (fun x => x) j Hj). unfold smooth_value.
    rewrite (table_mean n K K_sym K_pos (fun i => entry observations i j)). unfold weighted. apply sum_map_ext. intros i _. now rewrite total_row.
  Qed.
  Theorem smooth_spread j c : (j < d)%nat ->
    spread k domain observations j c = spread k domain smooth_matrix j c +
      sum (map (fun i => sum (map (fun l => K i l * (entry observations l j - entry smooth_matrix i j) ^ 2) L)) L).
  Proof.
    intro Hj. unfold spread. rewrite (weighted_smooth (fun x => (x - c) ^ 2) j Hj). unfold weighted.
    rewrite (sum_map_ext (fun i => w i * (entry observations i j - c) ^ 2) (fun i => sum (map (K i) L) * (entry observations i j - c) ^ 2))
      by (intros i _; now rewrite total_row).
    rewrite (table_spread n K K_sym K_pos (fun i => entry observations i j) c). unfold smooth_value. f_equal.
    apply sum_map_ext. intros i Hi. apply in_seq in Hi. apply sum_map_ext. intros l _. rewrite smooth_entry by lia. reflexivity.
  Qed.
  Theorem smooth_spread_le j c : (j < d)%nat -> spread k domain smooth_matrix j c <= spread k domain observations j c.
  Proof.
    intro Hj. rewrite (smooth_spread j c Hj).
    assert (N : 0 <= sum (map (fun i => sum (map (fun l => K i l * (entry observations l j - entry smooth_matrix i j) ^ 2) L)) L)).
    { apply sum_map_nonneg. intros i Hi. apply sum_map_nonneg. intros l Hl. apply Rmult_le_pos; [exact (K_nonneg i l Hi Hl) | apply pow2_ge_0]. }
    lra.
  Qed.
  Theorem smooth_spread_eq j c : (j < d)%nat -> (forall x y, In x domain -> In y domain -> 0 < k x y) ->
    (spread k domain smooth_matrix j c = spread k domain observations j c <->
     forall i l, (i < n)%nat -> (l < n)%nat -> entry observations i j = entry observations l j).
  Proof.
    intros Hj P. pose proof (smooth_spread j c Hj) as E. split.
    - intros H i l Hi Hl.
      assert (Z : sum (map (fun i => sum (map (fun l => K i l * (entry observations l j - smooth_value i j) ^ 2) L)) L) = 0).
      { rewrite (sum_map_ext _ (fun i => sum (map (fun l => K i l * (entry observations l j - entry smooth_matrix i j) ^ 2) L))); [lra|].
        intros i' Hi'. apply in_seq in Hi'. apply sum_map_ext. intros l' _. rewrite smooth_entry by lia. reflexivity. }
      assert (Q := rest_zero n K K_nonneg (fun i => entry observations i j) Z).
      assert (Ii : In i L) by (apply in_seq; lia). assert (Il : In l L) by (apply in_seq; lia).
      rewrite (Q i i Ii Ii (P _ _ (inside i Ii) (inside i Ii))). symmetry. exact (Q i l Ii Il (P _ _ (inside i Ii) (inside l Il))).
    - intro H. assert (Z : sum (map (fun i => sum (map (fun l => K i l * (entry observations l j - entry smooth_matrix i j) ^ 2) L)) L) = 0).
      { rewrite (sum_map_ext _ (fun _ => 0)); [rewrite sum_map_const; ring|]. intros i Hi.
        rewrite (sum_map_ext _ (fun _ => 0)); [rewrite sum_map_const; ring|]. intros l Hl.
        pose proof (K_pos i Hi) as Pi. apply in_seq in Hi. apply in_seq in Hl. rewrite smooth_entry by lia.
        assert (V : smooth_value i j = entry observations l j).
        { unfold smooth_value. rewrite (sum_map_ext (fun l0 => K i l0 * entry observations l0 j) (fun l0 => entry observations l j * K i l0)).
          - rewrite sum_map_scal. change (sum (map (fun x => K i x) L)) with (sum (map (K i) L)). field. lra.
          - intros l0 Hl0. apply in_seq in Hl0. rewrite (H l0 l) by lia. ring. }
        rewrite V. ring. }
      lra.
  Qed.
  Theorem smooth_sign j c : (j < d)%nat -> psd_on (fun x => In x domain) k ->
    0 <= weighted k domain (fun i => (entry observations i j - c) * (entry smooth_matrix i j - c)).
  Proof.
    intros Hj P. specialize (P domain (map (fun i => entry observations i j - c) L)).
    assert (F : Forall (fun x => In x domain) domain) by (rewrite Forall_forall; auto).
    specialize (P F). rewrite map_length, seq_length in P. specialize (P eq_refl).
    unfold quadratic in P. rewrite (dot_as_sum n) in P by (unfold matrix_of; now rewrite ?map_length, ?seq_length).
    unfold weighted. rewrite (sum_map_ext _ (fun i => sum (map (K i) L) * ((entry observations i j - c) * (smooth_value i j - c)))).
    2:{ intros i Hi. rewrite total_row. apply in_seq in Hi. rewrite smooth_entry by lia. reflexivity. }
    unfold smooth_value. rewrite (table_sign n K K_pos (fun i => entry observations i j) c).
    assert (NV : forall i, In i L -> nth i (map (fun i => entry observations i j - c) L) 0 = entry observations i j - c).
    { intros i Hi. apply in_seq in Hi. rewrite (nth_indep _ 0 ((fun i => entry observations i j - c) 0%nat)) by (rewrite map_length, seq_length; lia).
      rewrite (map_nth (fun i => entry observations i j - c) L 0%nat i), seq_nth by lia. reflexivity. }
    refine (Rle_trans _ _ _ P _). apply Req_le. apply sum_map_ext. intros i Hi. rewrite (NV i Hi). f_equal.
    unfold matrix_of. rewrite map_map. pose proof Hi as Hi'. apply in_seq in Hi'.
    rewrite (nth_indep _ 0 (dot (map (fun i => entry observations i j - c) L) (map (k []) domain))) by (rewrite map_length; lia).
    rewrite (map_nth (fun x => dot (map (fun i => entry observations i j - c) L) (map (k x) domain)) domain [] i).
    rewrite (dot_as_sum n) by now rewrite map_length, ?seq_length.
    apply sum_map_ext. intros l Hl. rewrite (NV l Hl). f_equal. apply in_seq in Hl.
    rewrite (nth_indep _ 0 (k (nth i domain []) [])) by (rewrite map_length; lia). apply map_nth.
  Qed.
End Smooth.
