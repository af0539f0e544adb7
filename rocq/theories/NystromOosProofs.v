(** The Nystrom feature map on other points: proofs. *)
From mathcomp Require Import all_ssreflect all_algebra.
From Verif Require Import RingId NystromM MatrixSpec NystromMProofs.
Set Implicit Arguments. Unset Strict Implicit. Unset Printing Implicit Defensive.
Import GRing.Theory Num.Theory Order.POrderTheory Order.TotalTheory.
Local Open Scope ring_scope.

Section Proofs.
  Variables (R : rcfType) (n : nat).

  Lemma qform_block m (K : 'M[R]_n) (Kx : 'M[R]_(m, n)) (Kxx : 'M[R]_m) (a : 'cV[R]_n) (c : 'cV[R]_m) :
    qform (block_mx K Kx^T Kx Kxx) (col_mx a c) =
    qform K a + \sum_j a j 0 * (Kx^T *m c) j 0 + \sum_j a j 0 * (Kx^T *m c) j 0 + qform Kxx c.
  Proof.
    have S : forall (u v : 'cV[R]_n), (u^T *m v) 0 0 = \sum_j u j 0 * v j 0.
      move=> u v. rewrite mxE. by apply: eq_bigr => j _; rewrite mxE.
    have T : forall A : 'M[R]_1, A^T 0 0 = A 0 0 by move=> A; rewrite mxE.
    rewrite /qform tr_col_mx mul_row_block mul_row_col !mulmxDl mxE [X in X + _]mxE [X in _ + X]mxE.
    have -> : (a^T *m Kx^T *m c) 0 0 = \sum_j a j 0 * (Kx^T *m c) j 0 by rewrite -mulmxA S.
    have -> : (c^T *m Kx *m a) 0 0 = \sum_j a j 0 * (Kx^T *m c) j 0.
      by rewrite -T !trmx_mul trmxK S.
    by rewrite -!addrA.
  Qed.

  Lemma gram_form m d (Phi : 'M[R]_(m, d)) (c : 'cV[R]_m) : qform (Phi *m Phi^T) c = \sum_i (Phi^T *m c) i 0 ^+ 2.
  Proof.
    rewrite /qform.
    have -> : c^T *m (Phi *m Phi^T) *m c = (Phi^T *m c)^T *m (Phi^T *m c) by rewrite trmx_mul trmxK !mulmxA.
    rewrite mxE. by apply: eq_bigr => i _; rewrite mxE expr2.
  Qed.

  Variables (K : 'M[R]_n) (s : 'rV[R]_n) (V : 'M[R]_n).
  Hypothesis E : eigendecomposition K s V.

  Lemma oos_entry (eps : R) k (Hk : (k <= n)%N) m (Kx : 'M[R]_(m, n)) x i :
    nystrom_oos eps Hk s V Kx x i =
    (Kx *m V) x (top Hk (tnth (in_tuple (kept eps (eigs_values Hk s))) i)) /
    Num.sqrt (s 0 (top Hk (tnth (in_tuple (kept eps (eigs_values Hk s))) i))).
  Proof.
    rewrite /nystrom_oos /oos_phi mul_diag_entry !mxE. congr (_ / _).
    apply: eq_bigr => j _. by rewrite !mxE.
  Qed.

  (** The quadratic form of the kernel of the features. *)
  Lemma oos_form (eps : R) k (Hk : (k <= n)%N) m (Kx : 'M[R]_(m, n)) (c : 'cV[R]_m) : 0 < eps ->
    qform (nystrom_oos eps Hk s V Kx *m (nystrom_oos eps Hk s V Kx)^T) c =
    \sum_(j | ~~ left_out s eps k j) (V^T *m (Kx^T *m c)) j 0 ^+ 2 / s 0 j.
  Proof.
    move=> He. set Phi := nystrom_oos eps Hk s V Kx.
    rewrite -(nystrom_reindex s eps Hk (fun j => (V^T *m (Kx^T *m c)) j 0 ^+ 2 / s 0 j)).
    rewrite gram_form.
    apply: eq_bigr => i _. set t := tnth _ i.
    have Pt : 0 < s 0 (top Hk t).
      have := kept_ge (eps:=eps) (l:=eigs_values Hk s) i. rewrite -/t mxE. exact: lt_le_trans.
    have -> : (Phi^T *m c) i 0 = (V^T *m (Kx^T *m c)) (top Hk t) 0 / Num.sqrt (s 0 (top Hk t)).
      rewrite mulmxA -trmx_mul mxE [X in _ = X / _]mxE big_distrl /=. apply: eq_bigr => x _.
      by rewrite [Phi^T _ _]mxE oos_entry -/t [(Kx *m V)^T _ _]mxE mulrAC.
    by rewrite expr_div_n sqr_sqrtr ?ltW.
  Qed.

  (** If the kernel of sample and points together is positive, then the Nystrom kernel is
      nowhere above it. *)
  Theorem oos_below (eps : R) k (Hk : (k <= n)%N) m (Kx : 'M[R]_(m, n)) (Kxx : 'M[R]_m) : 0 < eps ->
    psd (block_mx K Kx^T Kx Kxx) ->
    psd (Kxx - nystrom_oos eps Hk s V Kx *m (nystrom_oos eps Hk s V Kx)^T).
  Proof.
    move=> He P c. set G := _ *m _^T.
    have -> : qform (Kxx - G) c = qform Kxx c - qform G c.
      by rewrite /qform mulmxBr mulmxBl mxE [X in _ + X]mxE.
    rewrite /G oos_form //. set u := V^T *m (Kx^T *m c). set q := \sum_(j | _) _.
    pose w : 'cV[R]_n := \col_j (if left_out s eps k j then 0 else u j 0 / s 0 j).
    have Ps : forall j, ~~ left_out s eps k j -> s 0 j != 0.
      move=> j. rewrite /left_out negb_or -leNgt => /andP[_ H]. by rewrite gt_eqF // (lt_le_trans He H).
    have := P (col_mx (- (V *m w)) c). rewrite qform_block.
    have -> : qform K (- (V *m w)) = q.
      rewrite (qform_sum E) mulmxN mulmxA. case: E => [Ho _]. rewrite Ho mul1mx.
      rewrite [LHS](bigID (left_out s eps k)) /= big1 ?add0r => [|j Hj]; last by rewrite mxE mxE Hj oppr0 expr0n mulr0.
      apply: eq_bigr => j Hj. rewrite mxE mxE (negbTE Hj) sqrrN expr_div_n expr2 [s 0 j ^+ 2]expr2 invfM mulrCA.
      by rewrite [s 0 j * _]mulrA mulfV ?Ps // mul1r.
    have -> : \sum_j (- (V *m w)) j 0 * (Kx^T *m c) j 0 = - q.
      transitivity (- (w^T *m u) 0 0).
        rewrite /u mulmxA -trmx_mul mxE -sumrN. apply: eq_bigr => j _. by rewrite !mxE mulNr.
      congr (- _). rewrite mxE [LHS](bigID (left_out s eps k)) /= big1 ?add0r => [|j Hj]; last by rewrite mxE mxE Hj mul0r.
      apply: eq_bigr => j Hj. by rewrite mxE mxE (negbTE Hj) expr2 mulrAC.
    by rewrite subrr add0r addrC.
  Qed.

  (** Keeping more components brings it closer. *)
  Theorem oos_monotone (eps eps' : R) k k' (Hk : (k <= n)%N) (Hk' : (k' <= n)%N) m (Kx : 'M[R]_(m, n)) :
    0 < eps' -> eps' <= eps -> (k <= k')%N ->
    psd (nystrom_oos eps' Hk' s V Kx *m (nystrom_oos eps' Hk' s V Kx)^T -
         nystrom_oos eps Hk s V Kx *m (nystrom_oos eps Hk s V Kx)^T).
  Proof.
    move=> He' He Hkk c. set G' := _ *m _^T. set G := _ *m _^T.
    have -> : qform (G' - G) c = qform G' c - qform G c.
      by rewrite /qform mulmxBr mulmxBl mxE [X in _ + X]mxE.
    rewrite /G /G' !oos_form //; last exact: lt_le_trans He' He. rewrite subr_ge0.
    rewrite [X in X <= _]big_mkcond [X in _ <= X]big_mkcond /=. apply: ler_sum => j _.
    case: ifP => Hj; case: ifP => Hj' //.
      case/negP: (negbT Hj'). move: Hj. rewrite /left_out !negb_or -!leqNgt -!leNgt => /andP[H1 H2].
      apply/andP; split; last exact: le_trans He H2. apply: leq_trans H1. exact: leq_sub2l.
    apply: mulr_ge0; first exact: sqr_ge0. rewrite invr_ge0.
    move: Hj'. rewrite /left_out negb_or -leNgt => /andP[_ H]. exact: le_trans (ltW He') H.
  Qed.
End Proofs.

(** One sample point and another one. *)
Section Example.
  Variable R : rcfType.
  Definition ex_one : 'M[R]_1 := 1%:M.
  Definition ex_two : 'M[R]_1 := 2%:R%:M.
  Lemma ex_one_decomposition : eigendecomposition ex_one (const_mx 1) 1%:M.
  Proof.
    split; first by rewrite trmx1 mulmx1. split; first by rewrite mulmx1 mul1mx diag_const_mx.
    move=> i j _. by rewrite !mxE.
  Qed.
  Lemma ex_one_block : psd (block_mx ex_one ex_one^T ex_one ex_two).
  Proof.
    move=> v. rewrite -[v]vsubmxK qform_block /ex_one /ex_two trmx1 mul1mx. move: (usubmx v) (dsubmx v) => a c.
    rewrite /qform mulmx1 mul_mx_scalar -scalemxAl !mxE !big_ord_recl !big_ord0 !addr0 !mxE.
    set x := a 0 0. set y := c 0 0. have -> : x * x + x * y + x * y + 2%:R * (y * y) = (x + y) ^+ 2 + y ^+ 2.
      by rewrite (natrD _ 1 1) two_identity !expr2.
    by apply: addr_ge0; exact: sqr_ge0.
  Qed.
  Lemma ex_one_value : nystrom_oos (1 / 2%:R) (leqnn 1) (const_mx 1) 1%:M ex_one *m
    (nystrom_oos (1 / 2%:R) (leqnn 1) (const_mx 1) 1%:M ex_one)^T = ex_one.
  Proof.
    have P : (0 : R) < 1 / 2%:R by rewrite divr_gt0 ?ltr01 ?ltr0n.
    rewrite (nystrom_consistent ex_one_decomposition (leqnn 1) P).
    apply: (nystrom_exact ex_one_decomposition (leqnn 1) (ltW P)) => j.
    rewrite /left_out subnn ltn0 /= mxE => H. exfalso. move: H. rewrite ltNge ler_pdivr_mulr ?ltr0n // mul1r ler1n. by [].
  Qed.
End Example.
