(** Machines that meet the assumptions. *)
From Verif Require Import Base RVec RVecProofs KernelR Rounding RoundingSpec RoundingProofs RoundingErrorProofs.
From Coq Require Import Permutation.
Open Scope R_scope.

(** Numbers are added one after the other. *)
Fixpoint comb (n : nat) : tree := match n with O => Leaf 0 | S k => Node (comb k) (Leaf (S k)) end.
Definition in_turn (n : nat) : tree := comb (pred n).
Lemma comb_leaves n : leaves (comb n) = seq 0 (S n).
Proof.
  induction n as [|n IH]; [reflexivity|]. rewrite (seq_S (S n)). cbn [comb leaves]. rewrite IH. reflexivity.
Qed.
Lemma in_turn_all m n : plan m = in_turn -> n <> 0%nat -> sums_all m n.
Proof. intros E H. unfold sums_all. rewrite E. unfold in_turn. rewrite comb_leaves. now destruct n. Qed.
Lemma comb_depth n : depth (comb n) = n.
Proof. induction n as [|n IH]; [reflexivity|]. cbn [comb depth]. rewrite IH. lia. Qed.

(** No rounding. *)
Definition ideal : machine := Machine (fun x => x) exp sin in_turn.
Lemma ideal_exact : exact ideal.
Proof. repeat split. Qed.
Lemma exp_le_one x : x <= 0 -> exp x <= 1.
Proof. intros H. rewrite <- exp_0. destruct (Req_EM_T x 0) as [->|ne]; [lra|left; apply exp_increasing; lra]. Qed.
Lemma ideal_rounds : rounds ideal /\ exponential ideal /\ balanced ideal /\ increasing (mexp ideal).
Proof.
  split; [|split; [|split]].
  - repeat split; intros; cbn; assumption.
  - split; [exact exp_0|]. split; [intro x; left; apply exp_pos|exact exp_le_one].
  - split; [reflexivity|]. split; [reflexivity|]. intros x. cbn. rewrite exp_Ropp. pose proof (exp_pos x) as P.
    pose proof (Rinv_0_lt_compat _ P) as I.
    assert (Q : exp x + / exp x - 2 = (exp x - 1) ^ 2 * / exp x) by (field; lra).
    assert (0 <= (exp x - 1) ^ 2 * / exp x) by (apply Rmult_le_pos; [apply pow2_ge_0|lra]). lra.
  - intros x y H. cbn. destruct (Req_EM_T x y) as [->|ne]; [lra|left; apply exp_increasing; lra].
Qed.

(** Fixed point: to the nearest eighth. *)
Definition nearest_int (x : R) : R := IZR (Int_part (x + 1 / 2)).
Definition eighths (x : R) : R := if Rle_dec 0 x then nearest_int (8 * x) / 8 else - (nearest_int (8 * - x) / 8).
Definition fixed_point : machine := Machine eighths (fun x => eighths (exp x)) (fun x => eighths (sin x)) in_turn.
Lemma Int_part_mono x y : x <= y -> (Int_part x <= Int_part y)%Z.
Proof.
  intros H. destruct (base_Int_part x) as [A _], (base_Int_part y) as [_ B].
  assert (C : IZR (Int_part x) < IZR (Int_part y + 1)) by (rewrite plus_IZR; lra). apply lt_IZR in C. lia.
Qed.
Lemma Int_part_is r z : IZR z <= r < IZR z + 1 -> Int_part r = z.
Proof. intros [A B]. unfold Int_part. rewrite <- (up_tech r z); [lia|exact A|rewrite plus_IZR; lra]. Qed.
Lemma Int_part_half z : Int_part (IZR z + 1 / 2) = z.
Proof. apply Int_part_is. lra. Qed.
Lemma nearest_int_mono x y : x <= y -> nearest_int x <= nearest_int y.
Proof. intros H. unfold nearest_int. apply IZR_le, Int_part_mono. lra. Qed.
Lemma nearest_int_IZR z : nearest_int (IZR z) = IZR z.
Proof. unfold nearest_int. now rewrite Int_part_half. Qed.
Lemma nearest_int_nonneg x : 0 <= x -> 0 <= nearest_int x.
Proof. intros H. rewrite <- (nearest_int_IZR 0). now apply nearest_int_mono. Qed.
Lemma eighths_rounds : rounds fixed_point.
Proof.
  assert (Z : eighths 0 = 0).
  { unfold eighths. destruct (Rle_dec 0 0) as [_|n]; [|lra]. rewrite Rmult_0_r, (nearest_int_IZR 0). lra. }
  split; [exact Z|]. cbn [rnd fixed_point]. split.
  { unfold eighths. destruct (Rle_dec 0 1) as [_|n]; [|lra]. rewrite Rmult_1_r, (nearest_int_IZR 8). lra. }
  split.
  - intros x. destruct (Req_EM_T x 0) as [->|ne]; [rewrite Ropp_0, Z; ring|].
    unfold eighths. destruct (Rle_dec 0 (- x)) as [a|a], (Rle_dec 0 x) as [b|b]; try lra. rewrite Ropp_involutive. reflexivity.
  - intros x y H. unfold eighths. destruct (Rle_dec 0 x) as [a|a], (Rle_dec 0 y) as [b|b]; try lra.
    + assert (N : nearest_int (8 * x) <= nearest_int (8 * y)) by (apply nearest_int_mono; lra). lra.
    + assert (N1 : 0 <= nearest_int (8 * - x)) by (apply nearest_int_nonneg; lra).
      assert (N2 : 0 <= nearest_int (8 * y)) by (apply nearest_int_nonneg; lra). lra.
    + assert (N : nearest_int (8 * - y) <= nearest_int (8 * - x)) by (apply nearest_int_mono; lra). lra.
Qed.
Lemma eighths_exponential : exponential fixed_point /\ increasing (mexp fixed_point).
Proof.
  pose proof eighths_rounds as A. split.
  - unfold exponential. cbn [mexp fixed_point]. split; [rewrite exp_0; exact (proj1 (proj2 A))|]. split.
    + intros x. apply (rnd_nonneg fixed_point A). left. apply exp_pos.
    + intros x H. apply (rnd_le1 fixed_point A). now apply exp_le_one.
  - intros x y H. cbn [mexp fixed_point]. apply (rnd_mono fixed_point A).
    destruct (Req_EM_T x y) as [->|ne]; [lra|left; apply exp_increasing; lra].
Qed.
Lemma eighths_not_exact : eighths (1 / 3) = 3 / 8.
Proof.
  unfold eighths. destruct (Rle_dec 0 (1 / 3)) as [_|n]; [|lra]. unfold nearest_int.
  replace (Int_part (8 * (1 / 3) + 1 / 2)) with 3%Z; [lra|]. symmetry. apply Int_part_is. lra.
Qed.
(** A machine that is always off by one part in a million. *)
Definition biased : machine := Machine (fun x => x * (1 + / 1000000)) (fun x => exp x * (1 - / 1000000)) sin in_turn.
Lemma biased_accurate : accurate (/ 1000000) biased /\ exp_accurate (/ 1000000) biased.
Proof.
  split; (split; [lra|]); intros x; cbn [rnd mexp biased].
  - replace (x * (1 + / 1000000) - x) with (/ 1000000 * x) by ring. rewrite Rabs_mult, (Rabs_pos_eq (/ 1000000)); lra.
  - replace (exp x * (1 - / 1000000) - exp x) with (- (/ 1000000 * exp x)) by ring. rewrite Rabs_Ropp, Rabs_pos_eq; [lra|].
    pose proof (exp_pos x). lra.
Qed.
