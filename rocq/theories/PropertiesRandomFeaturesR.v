(** Property theorems C43, C44, C45, C93: random features. *)
From Verif Require Import Base RVec RVecProofs KernelR RandomFeaturesR RandomFeaturesRSpec RandomFeaturesRProofs.
Open Scope R_scope.

(** * C43 *)

Theorem C43_fourier :
  forall (d : nat) (w : mat) (sigma : R), w <> [] -> rect d w ->
  forall x y : vec, length x = d -> length y = d -> exists v, rf_kernel Fourier w sigma x y = Some v /\
    -1 <= v <= 1 /\ rf_kernel Fourier w sigma y x = Some v /\ rf_kernel Fourier w sigma x x = Some 1 /\
    forall t : vec, length t = d -> rf_kernel Fourier w sigma (zipw Rplus x t) (zipw Rplus y t) = Some v.
Proof. exact rff_shift_invariant. Qed.
Print Assumptions C43_fourier.
(** With infinitely many weights it is the Gaussian kernel. *)
Theorem C43_infinite :
  forall (sigma : R) (x y : vec), sigma <> 0 ->
    rbf sigma x y = Ok (Fin (rff_closed (scaled sigma x) (scaled sigma y))).
Proof. exact rff_infinite_is_rbf. Qed.
Print Assumptions C43_infinite.

Example C43_nontrivial : [[1; 2]; [0; -1]; [3; 3]] <> ([] : mat) /\ rect 2 [[1; 2]; [0; -1]; [3; 3]].
Proof. split; [discriminate|repeat constructor]. Qed.

(** * C44 *)

Theorem C44_inverse_undoes :
  forall (a : act) (x : R), admissible a -> exists y, activation a x = Some y /\ activation_inv a y = Ok (Some x).
Proof. exact activation_inverse. Qed.
Print Assumptions C44_inverse_undoes.
Theorem C44_activation_undoes :
  forall (a : act) (y : R), admissible a -> exists x, activation_inv a y = Ok (Some x) /\ activation a x = Some y.
Proof. exact inverse_activation. Qed.
Print Assumptions C44_activation_undoes.
Theorem C44_constructed_hyperbola :
  forall (alpha gamma delta beta : R) (h : hyper), hyper_init alpha gamma delta beta = Ok h -> admissible (Hyperbola h).
Proof. exact hyper_init_admissible. Qed.
Print Assumptions C44_constructed_hyperbola.
Theorem C44_rejected :
  forall y : R, activation_inv (LReLU 0) y = Err EBijection /\ activation_inv Fourier y = Err EBijection.
Proof. intros y. split; [exact (lrelu_zero_rejected y)|exact (fourier_rejected y)]. Qed.
Print Assumptions C44_rejected.
(** A negative slope has no inverse and is not rejected: positive numbers come back negative. *)
Theorem C44_negative_slope_refuted :
  forall al x : R, al < 0 -> 0 < x -> exists y x', activation (LReLU al) x = Some y /\
    activation_inv (LReLU al) y = Ok (Some x') /\ x' < 0.
Proof. exact lrelu_negative. Qed.
Print Assumptions C44_negative_slope_refuted.
(** Assigning alpha after the construction is not checked: the features become NaN. *)
Theorem C44_unchecked_alpha_refuted :
  exists h h', hyper_init 1 1 1 2 = Ok h /\ set_alpha h 5 = Ok h' /\ activation (Hyperbola h') 2 = None.
Proof. exact hyperbola_alpha_unchecked. Qed.
Print Assumptions C44_unchecked_alpha_refuted.

Example C44_nontrivial : admissible (LReLU (1 / 10)) /\ admissible (Hyperbola (Hyper 1 2 1 1)) /\ activation (LReLU (1 / 10)) (-1) = Some (- (1 / 10)).
Proof.
  split; [cbn; lra|]. split; [cbn; lra|]. cbn [activation]. unfold lrelu. destruct (Rle_dec 0 (-1)); [exfalso; lra|]. f_equal. field.
Qed.

(** * C45 *)

Theorem C45_preimage_of_features :
  forall (a : act) (d : nat) (w p : mat) (sigma : R) (x : vec), admissible a -> sigma <> 0 -> w <> [] -> rect d w ->
  pseudo_inverse d w p -> full_column_rank d w -> length x = d ->
  exists phi, rf_features a w sigma x = Some phi /\ rf_preimage a w p sigma phi = Ok (Some x).
Proof. exact preimage_exact. Qed.
Print Assumptions C45_preimage_of_features.
(** The documented other direction, when the weights are independent. *)
Theorem C45_features_of_preimage :
  forall (a : act) (d : nat) (w p : mat) (sigma : R) (phi : vec), admissible a -> sigma <> 0 -> w <> [] -> rect d w ->
  pseudo_inverse d w p -> full_row_rank d w -> length phi = length w ->
  exists x, rf_preimage a w p sigma phi = Ok (Some x) /\ rf_features a w sigma x = Some phi.
Proof. exact preimage_section. Qed.
Print Assumptions C45_features_of_preimage.

Example C45_nontrivial : let w := [[1]; [1]] in let p := [[1 / 2; 1 / 2]] in
  pseudo_inverse 1 w p /\ full_column_rank 1 w /\ rect 1 w.
Proof.
  cbv zeta. split; [split; [reflexivity|split; [repeat constructor|]]|split; [|repeat constructor]].
  - intros [|a [|b x]] H; try discriminate H. unfold apply_matrix, dot. cbn [map zipw sum fold_right]. repeat f_equal; field.
  - intros [|a [|b x]] H F; try discriminate H. apply Forall_inv in F. unfold dot in F. cbn in F. constructor; [lra|constructor].
Qed.

(** * C93 *)

Theorem C93_slope_one_is_linear :
  forall x y : vec, norm x <> 0 -> norm y <> 0 -> lrelu_closed 1 x y = Some (dot x y).
Proof. exact lrelu_closed_linear. Qed.
Print Assumptions C93_slope_one_is_linear.
Theorem C93_diagonal_partial :
  forall (al : R) (x : vec), norm x <> 0 -> lrelu_closed al x x = Some ((1 + al ^ 2) / 2 * dot x x).
Proof. exact lrelu_closed_diag. Qed.
Print Assumptions C93_diagonal_partial.
Theorem C93_symmetric : forall (al : R) (x y : vec), lrelu_closed al x y = lrelu_closed al y x.
Proof. exact lrelu_closed_sym. Qed.
Print Assumptions C93_symmetric.
(** The origin gives NaN. *)
Theorem C93_origin_refuted : forall (al : R) (x y : vec), norm x = 0 -> lrelu_closed al x y = None.
Proof. exact lrelu_closed_origin. Qed.
Print Assumptions C93_origin_refuted.

Example C93_nontrivial : norm [3; 4] = 5.
Proof. unfold norm, dot. cbn [zipw sum fold_right]. replace (3 * 3 + (4 * 4 + 0)) with (5 * 5) by ring. apply sqrt_square. lra. Qed.
