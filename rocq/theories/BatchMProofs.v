(** Models evaluated on batches of points: proofs. *)
From Verif Require Import Base.
From mathcomp Require Import all_ssreflect all_algebra.
From Verif Require Import NystromM KpcaM LssvmM CenterM.
Set Implicit Arguments. Unset Strict Implicit. Unset Printing Implicit Defensive.
Import GRing.Theory.
Local Open Scope ring_scope.

Section Batches.
  Variables (R : rcfType) (n d q a b : nat).

  Lemma means_up (A : 'M[R]_(a, n)) (B : 'M[R]_(b, n)) i : row_means (col_mx A B) (lshift b i) 0 = row_means A i 0.
  Proof. by rewrite !mxE; congr (_ * _); apply: eq_bigr => l _; rewrite col_mxEu. Qed.
  Lemma means_down (A : 'M[R]_(a, n)) (B : 'M[R]_(b, n)) i : row_means (col_mx A B) (rshift a i) 0 = row_means B i 0.
  Proof. by rewrite !mxE; congr (_ * _); apply: eq_bigr => l _; rewrite col_mxEd. Qed.

  Lemma center_rows (K : 'M[R]_n) (A : 'M[R]_(a, n)) (B : 'M[R]_(b, n)) :
    center_oos K (col_mx A B) = col_mx (center_oos K A) (center_oos K B).
  Proof.
    apply/matrixP => i j; rewrite -(splitK i); case: (fintype.split i) => l /=; rewrite ?col_mxEu ?col_mxEd [LHS]mxE [RHS]mxE.
    - by rewrite means_up col_mxEu.
    - by rewrite means_down col_mxEd.
  Qed.

  Lemma ones_rows (v : 'rV[R]_q) : ones R (a + b) *m v = col_mx (ones R a *m v) (ones R b *m v).
  Proof.
    rewrite -mul_col_mx; congr (_ *m _). apply/matrixP => i j; rewrite -(splitK i).
    by case: (fintype.split i) => l /=; rewrite ?col_mxEu ?col_mxEd !mxE.
  Qed.

  Lemma predict_dual_rows kappa (h : 'M[R]_(n, q)) (c : 'rV[R]_q) (A : 'M[R]_(a, n)) (B : 'M[R]_(b, n)) :
    predict_dual kappa h c (col_mx A B) = col_mx (predict_dual kappa h c A) (predict_dual kappa h c B).
  Proof. by rewrite /predict_dual mul_col_mx ones_rows scale_col_mx add_col_mx. Qed.
  Lemma predict_primal_rows kappa (w : 'M[R]_(d, q)) (c : 'rV[R]_q) (A : 'M[R]_(a, d)) (B : 'M[R]_(b, d)) :
    predict_primal kappa w c (col_mx A B) = col_mx (predict_primal kappa w c A) (predict_primal kappa w c B).
  Proof. by rewrite /predict_primal !scale_col_mx mul_col_mx ones_rows scale_col_mx add_col_mx. Qed.
  Lemma nystrom_rows eps k (Hk : (k <= n)%N) s V (A : 'M[R]_(a, n)) (B : 'M[R]_(b, n)) :
    nystrom_oos eps Hk s V (col_mx A B) = col_mx (nystrom_oos eps Hk s V A) (nystrom_oos eps Hk s V B).
  Proof. by rewrite /nystrom_oos /oos_phi !mul_col_mx. Qed.
  Lemma h_primal_rows (U : 'M[R]_(d, q)) vals (A : 'M[R]_(a, d)) (B : 'M[R]_(b, d)) :
    h_primal U vals (col_mx A B) = col_mx (h_primal U vals A) (h_primal U vals B).
  Proof. by rewrite /h_primal !mul_col_mx. Qed.
  Lemma h_dual_rows (H : 'M[R]_(n, q)) vals (A : 'M[R]_(a, n)) (B : 'M[R]_(b, n)) :
    h_dual H vals (col_mx A B) = col_mx (h_dual H vals A) (h_dual H vals B).
  Proof. by rewrite /h_dual !mul_col_mx. Qed.
  Lemma phi_map_rows (U : 'M[R]_(d, q)) vals (A : 'M[R]_(a, q)) (B : 'M[R]_(b, q)) :
    phi_map U vals (col_mx A B) = col_mx (phi_map U vals A) (phi_map U vals B).
  Proof. by rewrite /phi_map mul_col_mx. Qed.
  Lemma k_map_rows (K : 'M[R]_n) (H : 'M[R]_(n, q)) (A : 'M[R]_(a, q)) (B : 'M[R]_(b, q)) :
    k_map K H (col_mx A B) = col_mx (k_map K H A) (k_map K H B).
  Proof. by rewrite /k_map !mul_col_mx. Qed.
End Batches.
