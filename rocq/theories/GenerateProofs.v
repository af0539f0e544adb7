(** Points drawn from a kernel principal component analysis: proofs. *)
From mathcomp Require Import all_ssreflect all_algebra.
From Verif Require Import NystromM MatrixSpec NystromMProofs KpcaM KpcaSpec KpcaMProofs GenerateM.
Set Implicit Arguments. Unset Strict Implicit. Unset Printing Implicit Defensive.
Import GRing.Theory Num.Theory Order.POrderTheory Order.TotalTheory.
Local Open Scope ring_scope.

Section Moments.
  Variable R : rcfType.
  Lemma moment_mul m p q (Z : 'M[R]_(m, p)) (B : 'M[R]_(p, q)) : second_moment (Z *m B) = B^T *m second_moment Z *m B.
  Proof. by rewrite /second_moment trmx_mul !mulmxA -!scalemxAr -!scalemxAl !mulmxA. Qed.
  Lemma moment_scale m p (c : R) (Z : 'M[R]_(m, p)) : second_moment (c *: Z) = c ^+ 2 *: second_moment Z.
  Proof.
    have T : (c *: Z)^T = c *: Z^T by rewrite linearZ.
    by rewrite /second_moment T -scalemxAl -scalemxAr !scalerA expr2 -[m%:R^-1 * _ * _]mulrA [m%:R^-1 * _]mulrC.
  Qed.

  Section Weight.
    Variables (d q : nat) (U : 'M[R]_(d, q)) (vals : 'rV[R]_q).
    Hypothesis O : orthonormal U.
    Hypothesis P : forall i, 0 < vals 0 i.
    Lemma root_root : diag_mx (map_mx (fun v => Num.sqrt v) vals) *m diag_mx (map_mx (fun v => Num.sqrt v) vals) = diag_mx vals.
    Proof.
      rewrite mulmx_diag. congr diag_mx. apply/matrixP => a i. rewrite !mxE (ord1 a) -expr2 sqr_sqrtr //. exact/ltW/P.
    Qed.
    Lemma weight_gram : (weight U vals)^T *m weight U vals = diag_mx vals.
    Proof.
      rewrite /weight trmx_mul tr_diag_mx mulmxA -[_ *m U^T *m U]mulmxA O mulmx1. exact: root_root.
    Qed.
    Lemma weight_outer : weight U vals *m (weight U vals)^T = U *m diag_mx vals *m U^T.
    Proof. by rewrite /weight trmx_mul tr_diag_mx mulmxA -[U *m _ *m _]mulmxA root_root. Qed.
    Lemma diag_inv : diag_mx vals *m diag_mx (map_mx (fun v => v^-1) vals) = 1%:M.
    Proof.
      rewrite mulmx_diag -diag_const_mx. congr diag_mx. apply/matrixP => a i. rewrite !mxE mulfV // lt0r_neq0 //.
    Qed.
    Lemma inv_diag : diag_mx (map_mx (fun v => v^-1) vals) *m diag_mx vals = 1%:M.
    Proof.
      rewrite mulmx_diag -diag_const_mx. congr diag_mx. apply/matrixP => a i. rewrite !mxE mulVf // lt0r_neq0 //.
    Qed.
    (** The latent variables are found again. *)
    Theorem drawn_latent b num (Z : 'M[R]_(num, q)) : h_primal U vals (draw_phi b U vals Z) = Z.
    Proof. by rewrite /h_primal /draw_phi /phi_map -[Z *m _ *m _]mulmxA weight_gram -mulmxA diag_inv mulmx1. Qed.
    Theorem drawn_moment b num (Z : 'M[R]_(num, q)) : second_moment Z = 1%:M ->
      second_moment (draw_phi b U vals Z) = U *m diag_mx vals *m U^T.
    Proof. move=> H. by rewrite /draw_phi /phi_map moment_mul H mulmx1 trmxK weight_outer. Qed.
  End Weight.

  Section Primal.
    Variables (n d : nat) (Phi : 'M[R]_(n, d)) (s : 'rV[R]_d) (V : 'M[R]_d) (eps : R) (k : nat) (Hk : (k <= d)%N).
    Hypothesis E : eigendecomposition (second_moment Phi) s V.
    Hypothesis He : 0 < eps.
    Notation U := (primal_param eps Hk s V).
    Notation v := (primal_vals eps Hk s).
    Let O : orthonormal U := param_orthonormal E eps Hk.
    Lemma primal_pos i : 0 < v 0 i.
    Proof. apply: (lt_le_trans He). exact: vals_ge. Qed.
    (** The latent variables of the sample have unit second moment. *)
    Theorem sample_latent : second_moment (h_primal U v Phi) = 1%:M.
    Proof.
      have W : second_moment Phi *m (weight U v *m diag_mx (map_mx (fun x => x^-1) v)) = weight U v.
        have MW : second_moment Phi *m weight U v = weight U v *m diag_mx v.
          by rewrite /weight mulmxA (param_eigen E eps Hk) -mulmxA diag_mxC mulmxA.
        by rewrite mulmxA MW -mulmxA (diag_inv primal_pos) mulmx1.
      rewrite /h_primal -mulmxA moment_mul -mulmxA W trmx_mul tr_diag_mx -mulmxA weight_gram //; last exact: primal_pos.
      exact: (inv_diag primal_pos).
    Qed.
    Lemma projected : U *m diag_mx v *m U^T = U *m U^T *m second_moment Phi *m (U *m U^T).
    Proof.
      rewrite -[U *m U^T *m _]mulmxA (param_eigen_l E eps Hk) !mulmxA -[_ *m diag_mx _ *m U^T *m U]mulmxA O mulmx1. by [].
    Qed.
    Theorem drawn_projected : exists P, projects_on U P /\
      forall b num (Z : 'M[R]_(num, _)), second_moment Z = 1%:M -> second_moment (draw_phi b U v Z) = P *m second_moment Phi *m P.
    Proof.
      exists (U *m U^T). split; first exact: projector. move=> b num Z H. rewrite -projected. apply: drawn_moment => //. exact: primal_pos.
    Qed.
    Theorem drawn_missing b num (Z : 'M[R]_(num, _)) : second_moment Z = 1%:M ->
      \tr (second_moment Phi) - \tr (second_moment (draw_phi b U v Z)) = \sum_(j | left_out s eps k j) s 0 j.
    Proof.
      move=> H. rewrite (drawn_moment U primal_pos _ H) mxtrace_mulC mulmxA O mul1mx mxtrace_diag.
      rewrite (trace_sum E) (vals_sum s eps Hk) [X in X - _ = _](bigID (left_out s eps k)) /=. by rewrite addrK.
    Qed.
    Theorem drawn_exact b num (Z : 'M[R]_(num, _)) : (forall j, left_out s eps k j -> s 0 j = 0) -> second_moment Z = 1%:M ->
      second_moment (draw_phi b U v Z) = second_moment Phi.
    Proof.
      move=> L H. rewrite (drawn_moment U primal_pos _ H) -(param_eigen E eps Hk) -mulmxA. exact: (truncated_exact E Hk L).
    Qed.
  End Primal.

  Section Dual.
    Variables (n : nat) (K : 'M[R]_n) (s : 'rV[R]_n) (V : 'M[R]_n) (eps : R) (k : nat) (Hk : (k <= n)%N).
    Hypothesis E : eigendecomposition K s V.
    Hypothesis He : 0 < eps.
    Hypothesis Hn : (0 < n)%N.
    Notation H := (dual_param eps Hk s V).
    Notation l := (prune_values eps (eigs_values Hk s)).
    Notation v := (dual_vals eps Hk s).
    Let O : orthonormal H := param_orthonormal E eps Hk.
    Lemma dual_pos i : 0 < l 0 i.
    Proof. apply: (lt_le_trans He). exact: vals_ge. Qed.
    Lemma dual_inv : diag_mx l *m diag_mx (map_mx (fun x => x^-1) v) = n%:R%:M.
    Proof.
      rewrite mulmx_diag -diag_const_mx. congr diag_mx. apply/matrixP => a i. rewrite [LHS]mxE [RHS]mxE [(map_mx _ v) _ _]mxE.
      have -> : v 0 i = n%:R^-1 * l 0 i by rewrite mxE.
      by rewrite invfM invrK mulrCA mulfV ?mulr1 // lt0r_neq0 // dual_pos.
    Qed.
    Theorem dual_sample_latent : h_dual H v K = n%:R *: H.
    Proof. by rewrite /h_dual (param_eigen E eps Hk) -mulmxA dual_inv mul_mx_scalar. Qed.
    Theorem dual_sample_moment : second_moment (h_dual H v K) = n%:R%:M.
    Proof.
      rewrite dual_sample_latent moment_scale /second_moment O scalerA expr2 mulfK ?scalemx1 //.
      by rewrite pnatr_eq0 -lt0n.
    Qed.
    Theorem dual_drawn_latent b num (Z : 'M[R]_(num, _)) : h_dual H v (draw_k b K H Z) = n%:R *: Z.
    Proof.
      rewrite /h_dual /draw_k /k_map -[_ *m K *m H]mulmxA (param_eigen E eps Hk) -!mulmxA [H^T *m _]mulmxA O mul1mx dual_inv.
      exact: mul_mx_scalar.
    Qed.
    Theorem dual_drawn_moment : exists P, projects_on H P /\
      forall b num (Z : 'M[R]_(num, _)), second_moment Z = 1%:M ->
      second_moment (draw_k b K H Z) = n%:R *: (P *m second_moment K *m P).
    Proof.
      exists (H *m H^T). split; first exact: projector. move=> b num Z Hz.
      rewrite /draw_k /k_map -mulmxA moment_mul Hz mulmx1 trmx_mul trmxK (sym E).
      rewrite /second_moment (sym E) -scalemxAr -scalemxAl scalerA mulfV ?scale1r; last by rewrite pnatr_eq0 -lt0n.
      rewrite (param_eigen_l E eps Hk) (param_eigen E eps Hk) !mulmxA.
      rewrite -[H *m H^T *m K]mulmxA (param_eigen_l E eps Hk) mulmxA -[_ *m H^T *m K]mulmxA (param_eigen_l E eps Hk) mulmxA.
      by rewrite -[_ *m H^T *m H]mulmxA O mulmx1.
    Qed.
  End Dual.
End Moments.

Section DualWrong.
  Variables (R : rcfType) (n : nat) (K : 'M[R]_n) (s : 'rV[R]_n) (V : 'M[R]_n) (eps : R) (k : nat) (Hk : (k <= n)%N).
  Hypothesis E : eigendecomposition K s V.
  Hypothesis He : 0 < eps.
  Hypothesis Hn : (1 < n)%N.
  Notation H := (dual_param eps Hk s V).
  Notation l := (prune_values eps (eigs_values Hk s)).
  Notation v := (dual_vals eps Hk s).
  Let Hn0 : (0 < n)%N := ltnW Hn.
  Lemma n_not1 : n%:R != 1 :> R.
  Proof. rewrite -[1]/(1%:R) eqr_nat. by case: n Hn => [|[|]]. Qed.
  Lemma scaled_differs p q (A : 'M[R]_(p, q)) : A != 0 -> n%:R *: A != A.
  Proof.
    move=> NA. apply/negP => /eqP Q. move: NA. have Z : (n%:R - 1) *: A = 0 by rewrite scalerBl scale1r Q subrr.
    move/eqP: Z. rewrite scaler_eq0 subr_eq0 (negbTE n_not1) /=. by move=> ->.
  Qed.
  Theorem dual_latent_wrong : (0 < nystrom_dim eps (eigs_values Hk s))%N -> second_moment (h_dual H v K) != 1%:M.
  Proof.
    move=> Hq. rewrite (dual_sample_moment Hk E He Hn0). apply/negP => /eqP Q.
    have := congr1 (fun M : 'M[R]__ => M (Ordinal Hq) (Ordinal Hq)) Q. rewrite !mxE eqxx !mulr1n => /eqP. by rewrite (negbTE n_not1).
  Qed.
  Theorem dual_back_wrong b num (Z : 'M[R]_(num, _)) : Z != 0 -> h_dual H v (draw_k b K H Z) != Z.
  Proof. move=> NZ. rewrite (dual_drawn_latent E He). exact: scaled_differs. Qed.
  Theorem dual_moment_wrong b num (Z : 'M[R]_(num, _)) P : (0 < nystrom_dim eps (eigs_values Hk s))%N -> projects_on H P ->
    second_moment Z = 1%:M -> second_moment (draw_k b K H Z) != P *m second_moment K *m P.
  Proof.
    move=> Hq [PP [PT [PH PX]]] Hz. have O : orthonormal H := param_orthonormal E eps Hk.
    have [Q [[QQ [QT [QH QX]]] Hm]] := dual_drawn_moment eps Hk E Hn0.
    have EQ : P = Q.
      have PQ : P *m Q = Q.
        apply/matrixP => a c. have [w Hw] := QX (delta_mx c 0). have := PH.
        move/(congr1 (fun M => (M *m w) a 0)). rewrite -mulmxA -Hw mulmxA. 
        have D : forall M : 'M[R]_n, (M *m delta_mx c 0 : 'cV[R]_n) a 0 = M a c by move=> M; rewrite -colE mxE.
        by rewrite !D.
      have QP : Q *m P = P.
        apply/matrixP => a c. have [w Hw] := PX (delta_mx c 0). have := QH.
        move/(congr1 (fun M => (M *m w) a 0)). rewrite -mulmxA -Hw mulmxA.
        have D : forall M : 'M[R]_n, (M *m delta_mx c 0 : 'cV[R]_n) a 0 = M a c by move=> M; rewrite -colE mxE.
        by rewrite !D.
      by rewrite -QP -[RHS]PQ -{2}PT -{2}QT -trmx_mul QP PT.
    rewrite EQ (Hm b num Z Hz). apply: scaled_differs. apply/negP => /eqP Z0.
    have T : H^T *m (Q *m second_moment K *m Q) *m H = 0 by rewrite Z0 mulmx0 mul0mx.
    move: T. have HQ : H^T *m Q = H^T by rewrite -{1}QT -trmx_mul QH.
    rewrite !mulmxA HQ -[_ *m Q *m H]mulmxA QH /second_moment (sym E) -scalemxAr -scalemxAl.
    rewrite [H^T *m (K *m K)]mulmxA (param_eigen_l E eps Hk) -[_ *m _ *m K]mulmxA (param_eigen_l E eps Hk) -!mulmxA O mulmx1 => /eqP.
    rewrite scaler_eq0 invr_eq0 pnatr_eq0 (gtn_eqF Hn0) /= mulmx_diag => /eqP D0.
    have := congr1 (fun M : 'M[R]__ => M (Ordinal Hq) (Ordinal Hq)) D0. rewrite [LHS]mxE eqxx mulr1n [LHS]mxE [RHS]mxE => /eqP.
    have P0 : 0 < l 0 (Ordinal Hq) by apply: (lt_le_trans He); exact: vals_ge.
    by rewrite mulf_eq0 (gt_eqF P0).
  Qed.
End DualWrong.
