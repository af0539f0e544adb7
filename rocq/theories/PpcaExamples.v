(** Probabilistic principal components of two orthogonal points, and a model with correlated
    features. *)
From mathcomp Require Import all_ssreflect all_algebra.
From Verif Require Import NystromM MatrixSpec KpcaM KpcaSpec LssvmMProofs PpcaM PpcaSpec PpcaProofs.
Set Implicit Arguments. Unset Strict Implicit. Unset Printing Implicit Defensive.
Import GRing.Theory Num.Theory Order.POrderTheory Order.TotalTheory.
Local Open Scope ring_scope.

Section Two.
  Variable R : rcfType.
  Definition ones2 : 'rV[R]_2 := const_mx 1.
  Lemma decomposition2 : eigendecomposition (1%:M : 'M[R]_2) ones2 1%:M.
  Proof.
    split; first by rewrite trmx1 mulmx1. split; last by move=> i j _; rewrite !mxE.
    by rewrite mulmx1 mul1mx diag_const_mx.
  Qed.
  Lemma psd2 : psd (1%:M : 'M[R]_2).
  Proof. have -> : (1%:M : 'M[R]_2) = 1%:M *m 1%:M^T by rewrite trmx1 mulmx1. exact: outer_psd. Qed.
  Lemma noise2 (H1 : (1 <= 2)%N) : ppca_noise 2 (1%:M : 'M[R]_2) (eigs_values H1 ones2) = 2%:R^-1.
  Proof.
    rewrite /ppca_noise /= mxtrace1 big_ord1 !mxE.
    have -> : 2%:R - 1 = 1 :> R by rewrite mulr2n addrK. by rewrite mulr1 mul1r.
  Qed.
  Lemma half_lt1 : 2%:R^-1 < 1 :> R.
  Proof. by rewrite invf_lt1 ?ltr0n // ltr1n. Qed.
  Lemma solved2 (H1 : (1 <= 2)%N) : exists H, ppca_dual (1%:M : 'M[R]_2) H1 ones2 1%:M = Some H.
  Proof.
    apply: (dual_small decomposition2) => //; first exact: psd2.
      by move=> i; rewrite !mxE ltr01. rewrite noise2. exact: ltW half_lt1.
  Qed.
  (** The same points as features. *)
  Lemma moment2 : second_moment (1%:M : 'M[R]_2) = 2%:R^-1 *: 1%:M.
  Proof. by rewrite /second_moment trmx1 mulmx1. Qed.
  Definition halves2 : 'rV[R]_2 := const_mx 2%:R^-1.
  Lemma decomposition2' : eigendecomposition (second_moment (1%:M : 'M[R]_2)) halves2 1%:M.
  Proof.
    rewrite moment2. split; first by rewrite trmx1 mulmx1. split; last by move=> i j _; rewrite !mxE.
    by rewrite mulmx1 mul1mx diag_const_mx scalemx1.
  Qed.
  Lemma primal2 (H2 : (2 <= 2)%N) : exists W, ppca_primal (1%:M : 'M[R]_2) H2 halves2 1%:M = Some W.
  Proof.
    rewrite /ppca_primal /ppca_weight. case: ifP => [_ | /negbT /negP []]; first by eexists.
    apply/forallP => i. rewrite /primal_factor /ppca_noise /= expr0n /= subr0 !mxE. by apply: divr_ge0; rewrite ?invr_ge0 ler0n.
  Qed.

  Definition Wc : 'cV[R]_2 := \col_i (if i == 0 then 20%:R else 60%:R).
  Definition Lc : 'M[R]_2 := \matrix_(i, j) (if i == 0 then (if j == 0 then 25%:R else 0) else (if j == 0 then 48%:R else 39%:R)).
  Definition uc : 'M[R]_2 := \matrix_(i, j) (if (i == 0) || (j == 0) then 1 else - 1).
  Lemma ord2_case (i : 'I_2) : i = 0 \/ i = 1.
  Proof. case: i => [[|[|k]] H] //; [left | right]; exact: val_inj. Qed.
  Lemma cholesky_c : cholesky (ppca_covariance Wc 15%:R) Lc.
  Proof.
    split; last split.
    - apply/matrixP => i j. rewrite /ppca_covariance !mxE big_ord1 !big_ord_recl big_ord0 !mxE addr0.
      case: (ord2_case i) => ->; case: (ord2_case j) => -> /=; rewrite ?mulr0 ?mul0r ?addr0 ?add0r ?mulr1 -?natrX -?natrM -?natrD; congr _%:R; by vm_compute.
    - move=> i j. case: (ord2_case i) => ->; case: (ord2_case j) => -> //=. by rewrite mxE.
    - move=> i. rewrite mxE. case: (ord2_case i) => -> /=; by rewrite ltr0n.
  Qed.
  Lemma moment_c : second_moment uc = 1%:M.
  Proof.
    rewrite /second_moment. apply/matrixP => i j. rewrite !mxE !big_ord_recl big_ord0 !mxE addr0.
    have two : 2%:R != 0 :> R by rewrite pnatr_eq0.
    case: (ord2_case i) => ->; case: (ord2_case j) => -> /=; rewrite ?mulr1 ?mul1r ?mulrNN ?mulr1 ?subrr ?mulr0 //;
      by rewrite -mulr2n mulVf.
  Qed.
  Lemma correlated_c : ~ diagonal (ppca_covariance Wc 15%:R).
  Proof.
    move/(_ 0 1 isT). rewrite /ppca_covariance !mxE big_ord1 !mxE /= mulr0 addr0 -natrM => /eqP. by rewrite pnatr_eq0.
  Qed.
End Two.
