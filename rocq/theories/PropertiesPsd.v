(** Property theorems C156, C157, C158: which kernels give positive semi-definite
    matrices. *)
From Verif Require Import Base RVec RVecProofs KernelR KernelRSpec TimeR TimeRSpec.
From Verif Require Import PsdKernelProofs PsdCompactProofs PsdSilvermanProofs PsdChiProofs.
Open Scope R_scope.

(** * C156 *)

Theorem C156_laplacian_psd :
  forall (sigma : R) (d : nat), sigma <> 0 ->
  exists f, (forall x y, laplacian sigma x y = Ok (Fin (f x y))) /\ psd_on (fun x => length x = d) f.
Proof. exact laplacian_psd. Qed.
Print Assumptions C156_laplacian_psd.

Theorem C156_exponential_manhattan_psd :
  forall (sigma : R) (d : nat), 0 < sigma ->
  exists f, (forall x y, kvalue (Exponential false) Manhattan sigma x y = Ok (Fin (f x y))) /\ psd_on (fun x => length x = d) f.
Proof. exact manhattan_psd. Qed.
Print Assumptions C156_exponential_manhattan_psd.

Theorem C156_logistic_psd :
  forall (sigma : R) (d : nat), sigma <> 0 ->
  exists f, (forall x y, kvalue Logistic Euclidean sigma x y = Ok (Fin (f x y))) /\ psd_on (fun x => length x = d) f.
Proof. exact logistic_psd. Qed.
Print Assumptions C156_logistic_psd.

(** The Silverman kernel between numbers. *)
Theorem C156_silverman_psd :
  forall (d : distance) (sigma : R), offered d -> 0 < sigma ->
  exists f, (forall x y, length x = 1%nat -> length y = 1%nat -> kvalue Silverman d sigma x y = Ok (Fin (f x y))) /\
            psd_on (fun x => length x = 1%nat) f.
Proof. exact silverman_psd. Qed.
Print Assumptions C156_silverman_psd.

Example C156_nontrivial :
  laplacian 1 [0; 0] [3; 4] = Ok (Fin (exp (- (5 * sqrt (1 / 2))))) /\ laplacian 1 [3; 4] [3; 4] = Ok (Fin 1).
Proof.
  unfold laplacian, kvalue. rewrite !euclidean_sigma by lra. cbn [bind profile]. unfold square_dist. cbn [zipw sum fold_right].
  rewrite Rabs_R1. split.
  - replace ((0 - 3) * (0 - 3) + ((0 - 4) * (0 - 4) + 0)) with (5 * 5) by ring. rewrite sqrt_square by lra. do 3 f_equal. field.
  - replace ((3 - 3) * (3 - 3) + ((4 - 4) * (4 - 4) + 0)) with 0 by ring. rewrite sqrt_0, Rmult_0_r, Rmult_0_l. now rewrite exp_0.
Qed.

(** * C157 *)

Theorem C157_additive_psd :
  forall d : nat, psd_on (fun x => length x = d /\ clear_of_threshold x) chi2.
Proof. exact chi2_psd. Qed.
Print Assumptions C157_additive_psd.

Theorem C157_skewed_psd :
  forall (p : R) (d : nat),
  exists f, (forall x y, length x = d /\ clear_of_threshold (map (fun a => a + p) x) ->
                         length y = d /\ clear_of_threshold (map (fun a => a + p) y) -> skewed p x y = Some (f x y)) /\
            psd_on (fun x => length x = d /\ clear_of_threshold (map (fun a => a + p) x)) f.
Proof. exact skewed_psd. Qed.
Print Assumptions C157_skewed_psd.

(** The condition on small features cannot be dropped. *)
Theorem C157_small_features : ~ psd_on (fun x => length x = 1%nat /\ Forall (fun a => 0 <= a) x) chi2.
Proof. exact chi2_small_not_psd. Qed.
Print Assumptions C157_small_features.

Example C157_nontrivial : clear_of_threshold [0; 1 / 2; 3] /\ chi2 [0; 1 / 2; 3] [1; 1 / 2; 1] = 2.
Proof.
  assert (E : EPS <= 1).
  { unfold EPS. apply Rle_trans with (/ 1); [|rewrite Rinv_1; lra]. apply Rinv_le_contravar; [lra|]. apply pow_R1_Rle. lra. }
  split; [repeat (apply Forall_cons; [first [left; reflexivity|right; lra]|]); apply Forall_nil|]. unfold chi2. cbn [zipw sum fold_right].
  rewrite !Rmax_left by lra. field.
Qed.

(** * C158 *)

Theorem C158_compact_kernels :
  forall (k : kern) (d : distance) (sigma : R) (n : nat), compact k -> offered d -> 0 < sigma -> (1 <= n)%nat ->
  (exists f, (forall x y, length x = n -> length y = n -> kvalue k d sigma x y = Ok (Fin (f x y))) /\
             psd_on (fun x => length x = n) f) <-> k = Triangular /\ n = 1%nat.
Proof. exact compact_psd. Qed.
Print Assumptions C158_compact_kernels.

Example C158_nontrivial : compact Triangular /\ compact Epanechnikov /\
  quadratic [[1; 3 / 4; 0]; [3 / 4; 1; 3 / 4]; [0; 3 / 4; 1]] [2; -3; 2] = -1.
Proof. repeat split. unfold quadratic, dot. cbn [map zipw sum fold_right]. field. Qed.
