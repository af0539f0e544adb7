(** C220: the outputs of trained models, point by point. *)
From Verif Require Import Base.
From mathcomp Require Import all_ssreflect all_algebra.
From Verif Require Import NystromM KpcaM LssvmM CenterM BatchMProofs.
Set Implicit Arguments. Unset Strict Implicit. Unset Printing Implicit Defensive.
Import GRing.Theory.
Local Open Scope ring_scope.

(** The predictions of a least-squares support vector machine for two groups of points evaluated
    together are those of the groups, in both formulations. *)
Theorem C220_predictions :
  forall (R : rcfType) (n d q a b : nat) (kappa : R) (h : 'M[R]_(n, q)) (w : 'M[R]_(d, q)) (c : 'rV[R]_q)
    (K1 : 'M[R]_(a, n)) (K2 : 'M[R]_(b, n)) (P1 : 'M[R]_(a, d)) (P2 : 'M[R]_(b, d)),
    predict_dual kappa h c (col_mx K1 K2) = col_mx (predict_dual kappa h c K1) (predict_dual kappa h c K2) /\
    predict_primal kappa w c (col_mx P1 P2) = col_mx (predict_primal kappa w c P1) (predict_primal kappa w c P2).
Proof. by move=> R n d q a b kappa h w c K1 K2 P1 P2; split; [exact: predict_dual_rows|exact: predict_primal_rows]. Qed.
Print Assumptions C220_predictions.

(** So are the components of a kernel principal component analysis and what is mapped back from them. *)
Theorem C220_components :
  forall (R : rcfType) (n d q a b : nat) (U : 'M[R]_(d, q)) (H : 'M[R]_(n, q)) (vals : 'rV[R]_q) (K : 'M[R]_n)
    (K1 : 'M[R]_(a, n)) (K2 : 'M[R]_(b, n)) (P1 : 'M[R]_(a, d)) (P2 : 'M[R]_(b, d)) (h1 : 'M[R]_(a, q)) (h2 : 'M[R]_(b, q)),
    [/\ h_dual H vals (col_mx K1 K2) = col_mx (h_dual H vals K1) (h_dual H vals K2),
        h_primal U vals (col_mx P1 P2) = col_mx (h_primal U vals P1) (h_primal U vals P2),
        k_map K H (col_mx h1 h2) = col_mx (k_map K H h1) (k_map K H h2) &
        phi_map U vals (col_mx h1 h2) = col_mx (phi_map U vals h1) (phi_map U vals h2)].
Proof.
  move=> R n d q a b U H vals K K1 K2 P1 P2 h1 h2.
  by split; [exact: h_dual_rows|exact: h_primal_rows|exact: k_map_rows|exact: phi_map_rows].
Qed.
Print Assumptions C220_components.

(** And the Nystrom features, whatever was decomposed, and the centered kernel matrices. *)
Theorem C220_nystrom :
  forall (R : rcfType) (n k a b : nat) (Hk : (k <= n)%N) (eps : R) (s : 'rV[R]_n) (V K : 'M[R]_n)
    (K1 : 'M[R]_(a, n)) (K2 : 'M[R]_(b, n)),
    nystrom_oos eps Hk s V (col_mx K1 K2) = col_mx (nystrom_oos eps Hk s V K1) (nystrom_oos eps Hk s V K2) /\
    center_oos K (col_mx K1 K2) = col_mx (center_oos K K1) (center_oos K K2).
Proof. by move=> *; split; [exact: nystrom_rows|exact: center_rows]. Qed.
Print Assumptions C220_nystrom.
