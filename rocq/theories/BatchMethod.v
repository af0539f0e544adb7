(** Pre-image methods on batches: proofs. *)
From Coq Require Import Permutation.
From Verif Require Import Base RVec RVecProofs Method MethodSpec MethodProofs EquivariantProofs BatchSpec.
Open Scope R_scope.

Section Methods.
  Variable topk : vec -> nat -> list nat.

  Theorem smoother_batches cols c1 c2 observations num :
    smoother topk cols (c1 ++ c2) observations num =
    together (smoother topk cols c1 observations num) (smoother topk cols c2 observations num).
  Proof.
    unfold smoother. destruct (negb _); [reflexivity|]. destruct (_ <=? 0)%Z; [reflexivity|].
    destruct (_ <? _)%Z; [reflexivity|]. cbn [together bind]. now rewrite map_app.
  Qed.

  Hypothesis Ht : selects_largest topk.
  Variable d : nat.

  Lemma knn_row_shift c observations k row : rect d observations -> length row = length observations -> NoDup row ->
    (1 <= k <= length row)%nat ->
    knn_row topk observations k (map (fun v => v + c) row) = knn_row topk observations k row.
  Proof.
    intros Ro L N Hk. unfold knn_row.
    pose proof (Ht (map Ropp (map (fun v => v + c) row)) k) as T1. rewrite !map_length in T1. specialize (T1 ltac:(lia)).
    pose proof (Ht (map Ropp row) k) as T2. rewrite !map_length in T2. specialize (T2 ltac:(lia)).
    apply largest_nearest in T1. apply (proj1 (nearest_shift _ _ _ _)) in T1. apply largest_nearest in T2.
    apply (pick_mean_perm d); [exact Ro| | |].
    - intros E. destruct T1 as (_ & T & _). rewrite E in T. cbn in T. lia.
    - destruct T1 as (_ & _ & T & _). rewrite <- L. exact T.
    - exact (nearest_unique row k _ _ N T1 T2).
  Qed.

  Theorem knn_batches cols d1 d2 observations num : rect d observations -> rect cols (d1 ++ d2) ->
    Forall (@NoDup R) (d1 ++ d2) -> d1 <> [] -> d2 <> [] ->
    knn topk cols (d1 ++ d2) observations num =
    together (knn topk cols d1 observations num) (knn topk cols d2 observations num).
  Proof.
    intros Ro Rd N N1 N2. unfold knn.
    destruct (Nat.eqb_spec cols (length observations)) as [Hc|Hc]; cbn [negb]; [|reflexivity].
    destruct (Z.ltb_spec (Z.of_nat cols) num) as [H1|H1]; [reflexivity|].
    destruct (Z.leb_spec num 0) as [H2|H2]; [reflexivity|].
    assert (G : forall D, rect cols D -> Forall (@NoDup R) D ->
      map (knn_row topk observations (Z.to_nat num)) (shifted D) = map (knn_row topk observations (Z.to_nat num)) D).
    { intros D RD ND. destruct (shifted_by D) as (c & ->). rewrite map_map. apply map_ext_in. intros row Hr.
      pose proof (proj1 (Forall_forall _ _) RD row Hr) as Lr. pose proof (proj1 (Forall_forall _ _) ND row Hr) as Nr. cbv beta in Lr.
      apply knn_row_shift; [exact Ro|lia|exact Nr|lia]. }
    rewrite (G _ Rd N). apply Forall_app in N. destruct N as (M1 & M2).
    assert (R1 : rect cols d1 /\ rect cols d2) by (unfold rect in *; now apply Forall_app in Rd).
    rewrite (G _ (proj1 R1) M1), (G _ (proj2 R1) M2), map_app.
    destruct d1 as [|r1 d1]; [now elim N1|]. destruct d2 as [|r2 d2]; [now elim N2|]. reflexivity.
  Qed.
End Methods.
