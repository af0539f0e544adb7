(** The after-step hook of an LS-SVM level: proofs. *)
From Verif Require Import Base RVec RVecProofs Center.
Open Scope R_scope.

(** Every output has dual variables that sum to zero over the points. *)
Definition centered (d : mat) : Prop := Forall (fun r => sum r = 0) d.

Lemma sum_zipw_minus r v : List.length r = List.length v -> sum (zipw Rminus r v) = sum r - sum v.
Proof.
  revert v. induction r as [|x r IH]; intros [|y v]; cbn [zipw List.length]; intros H; try discriminate H.
  - cbn. lra.
  - injection H as H. rewrite !sum_cons, IH by exact H. lra.
Qed.

Lemma single_output r : r <> [] ->
  exists r', after_step (List.length r) (Some [r]) = (Ok tt, Some [r']) /\ sum r' = 0 /\ List.length r' = List.length r /\
    forall i j, (i < List.length r)%nat -> (j < List.length r)%nat -> nth i r' 0 - nth j r' 0 = nth i r 0 - nth j r 0.
Proof.
  intros Hr. exists (map (fun y => y - mean r) r).
  assert (E : center_hidden (List.length r) [r] = Ok [map (fun y => y - mean r) r]).
  { unfold center_hidden, subtract_vector. cbn [map]. destruct (Nat.eqb_spec (List.length [mean r]) (List.length r)) as [H|H]; [|reflexivity].
    cbn [List.length] in H. destruct r as [|x [|y r]]; try discriminate H. reflexivity. }
  unfold after_step. rewrite E. split; [reflexivity|]. split; [|split].
  - rewrite (sum_map_minus (fun y => y) (fun _ => mean r)), map_id, sum_map_const.
    rewrite mean_sum by exact Hr. lra.
  - apply map_length.
  - intros i j Hi Hj. rewrite !nth_indep with (d := 0) (d' := 0 - mean r) by (rewrite map_length; assumption).
    rewrite !(map_nth (fun y => y - mean r)). lra.
Qed.

Lemma other_sizes n d : rect n d -> List.length d <> 1%nat -> List.length d <> n ->
  after_step n (Some d) = (Err ERuntimeError, Some d).
Proof.
  intros _ H1 Hn. unfold after_step, center_hidden, subtract_vector.
  destruct (Nat.eqb_spec (List.length (map mean d)) n) as [E|_]; [rewrite map_length in E; contradiction|].
  destruct d as [|a [|b d]]; cbn [map]; try reflexivity. cbn in H1. contradiction.
Qed.

Lemma sum_means n d : rect n d -> sum (map mean d) = sum (map sum d) / INR n.
Proof.
  intros H. induction H as [|r d Hr _ IH]; cbn [map].
  - cbn. unfold Rdiv. lra.
  - rewrite !sum_cons, IH. unfold mean. rewrite Hr. unfold Rdiv. lra.
Qed.

Lemma square n d : rect n d -> List.length d = n ->
  exists d', after_step n (Some d) = (Ok tt, Some d') /\ List.length d' = n /\
    forall i, (i < n)%nat -> sum (nth i d' []) = sum (nth i d []) - sum (map sum d) / INR n.
Proof.
  intros Hr Hl. exists (map (fun r => zipw Rminus r (map mean d)) d). split; [|split].
  - unfold after_step, center_hidden, subtract_vector. rewrite map_length, Hl, Nat.eqb_refl. reflexivity.
  - rewrite map_length. exact Hl.
  - intros i Hi. set (f := fun r : vec => zipw Rminus r (map mean d)).
    assert (Ei : nth i (map f d) [] = f (nth i d [])).
    { rewrite <- (map_nth f). apply nth_indep. rewrite map_length, Hl. exact Hi. }
    transitivity (sum (f (nth i d []))); [exact (f_equal sum Ei)|]. unfold f.
    rewrite sum_zipw_minus by (rewrite map_length, Hl; apply (rect_nth n); [exact Hr|rewrite Hl; exact Hi]).
    rewrite (sum_means n) by exact Hr. reflexivity.
Qed.

(** Square: centered exactly if all outputs had the same sum. *)
Lemma square_centered n d : rect n d -> List.length d = n -> (0 < n)%nat ->
  exists d', after_step n (Some d) = (Ok tt, Some d') /\
    (centered d' <-> forall i j, (i < n)%nat -> (j < n)%nat -> sum (nth i d []) = sum (nth j d [])).
Proof.
  intros Hr Hl Hn. destruct (square n d Hr Hl) as [d' [E [L V]]]. exists d'. split; [exact E|]. split.
  - intros Hc i j Hi Hj. pose proof (proj1 (Forall_forall _ _) Hc) as Hc'. cbv beta in Hc'.
    assert (A : forall k, (k < n)%nat -> sum (nth k d' []) = 0) by (intros k Hk; apply Hc', nth_In; rewrite L; exact Hk).
    pose proof (V i Hi) as Vi. pose proof (V j Hj) as Vj. rewrite A in Vi by exact Hi. rewrite A in Vj by exact Hj. lra.
  - intros Hs. apply Forall_forall. intros r Hin. destruct (In_nth _ _ [] Hin) as [i [Hi0 Ei]].
    assert (Hi : (i < n)%nat) by (rewrite <- L; exact Hi0).
    rewrite <- Ei. etransitivity; [exact (V i Hi)|].
    assert (T : sum (map sum d) = INR n * sum (nth i d [])).
    { rewrite (sum_map_ext sum (fun _ => sum (nth i d []))).
      - rewrite sum_map_const, Hl. reflexivity.
      - intros x Hx. destruct (In_nth _ _ [] Hx) as [j [Hj0 Ej]]. rewrite <- Ej.
        assert (Hj : (j < n)%nat) by (rewrite <- Hl; exact Hj0). apply Hs; assumption. }
    rewrite T. assert (0 < INR n) by (apply lt_0_INR; exact Hn). field. lra.
Qed.
