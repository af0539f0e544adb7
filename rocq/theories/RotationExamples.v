(** Other coordinates for the same points: instances. *)
From Coq Require Import Permutation.
From Verif Require Import Base Beautify RVec RVecProofs KernelR RotationSpec.
Open Scope R_scope.

Definition turn : mat := [[3 / 5; 4 / 5]; [- (4 / 5); 3 / 5]].
Lemma turn_orthonormal : orthonormal 2 turn.
Proof.
  split; [repeat constructor|]. intros [|[|j]] [|[|k]] Hj Hk; try (exfalso; lia); unfold turn, column; cbn [map nth];
    rewrite !dot_cons, dot_nil_l; cbn; lra.
Qed.
Lemma triangular_value d sigma x y r : 0 < sigma -> d <> Euclidean -> dist d x y = Ok r -> r <= sigma ->
  kvalue Triangular d sigma x y = Ok (Fin (1 - 1 / sigma * r)).
Proof.
  intros Hs Hd Hr Hle. unfold kvalue. assert (E : dist_sigma d sigma x y = Ok (over sigma r)).
  { destruct d; [congruence|cbn [dist_sigma]; rewrite Hr; reflexivity..]. }
  rewrite E. cbn [bind]. unfold over. destruct (Req_EM_T sigma 0) as [F|_]; [lra|]. cbn [profile window].
  destruct (Rle_dec (1 / sigma * r) 1) as [_|F]; [reflexivity|]. exfalso. apply F.
  apply (Rmult_le_reg_l sigma); [exact Hs|]. replace (sigma * (1 / sigma * r)) with r by (field; lra). lra.
Qed.
Lemma turned_manhattan :
  kvalue Triangular Manhattan 2 [1; 0] [0; 0] = Ok (Fin (1 / 2)) /\
  kvalue Triangular Manhattan 2 (rotate turn [1; 0]) (rotate turn [0; 0]) = Ok (Fin (3 / 10)).
Proof.
  split.
  - rewrite (triangular_value Manhattan 2 _ _ 1); [do 2 f_equal; lra|lra|discriminate| |lra].
    cbn [dist zipw sum fold_right]. f_equal. rewrite !Rminus_0_r, Rabs_R0, Rabs_R1. ring.
  - rewrite (triangular_value Manhattan 2 _ _ (7 / 5)); [do 2 f_equal; lra|lra|discriminate| |lra].
    unfold rotate, turn. cbn [map]. rewrite !dot_cons, !dot_nil_l. cbn [dist zipw sum fold_right]. f_equal.
    replace (3 / 5 * 1 + (4 / 5 * 0 + 0) - (3 / 5 * 0 + (4 / 5 * 0 + 0))) with (3 / 5) by ring.
    replace (- (4 / 5) * 1 + (3 / 5 * 0 + 0) - (- (4 / 5) * 0 + (3 / 5 * 0 + 0))) with (- (4 / 5)) by ring.
    rewrite Rabs_Ropp, !Rabs_right; lra.
Qed.
Lemma turned_chebyshev :
  kvalue Triangular Chebyshev 2 [1; 0] [0; 0] = Ok (Fin (1 / 2)) /\
  kvalue Triangular Chebyshev 2 (rotate turn [1; 0]) (rotate turn [0; 0]) = Ok (Fin (3 / 5)).
Proof.
  split.
  - rewrite (triangular_value Chebyshev 2 _ _ 1); [do 2 f_equal; lra|lra|discriminate| |lra].
    cbn [dist zipw]. f_equal. rewrite !Rminus_0_r, Rabs_R0, Rabs_R1. cbn. unfold Rmax. repeat destruct (Rle_dec _ _); lra.
  - rewrite (triangular_value Chebyshev 2 _ _ (4 / 5)); [do 2 f_equal; lra|lra|discriminate| |lra].
    unfold rotate, turn. cbn [map]. rewrite !dot_cons, !dot_nil_l. cbn [dist zipw]. f_equal.
    replace (3 / 5 * 1 + (4 / 5 * 0 + 0) - (3 / 5 * 0 + (4 / 5 * 0 + 0))) with (3 / 5) by ring.
    replace (- (4 / 5) * 1 + (3 / 5 * 0 + 0) - (- (4 / 5) * 0 + (3 / 5 * 0 + 0))) with (- (4 / 5)) by ring.
    rewrite Rabs_Ropp, !Rabs_right by lra. cbn. unfold Rmax. repeat destruct (Rle_dec _ _); lra.
Qed.
Lemma swap_reordering : reordering 2 [1; 0]%nat (fun j => match j with O => -1 | _ => 1 end).
Proof. split; [apply perm_swap|]. intros [|j] _; auto. Qed.
