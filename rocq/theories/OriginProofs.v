(** Centering and the origin of the feature space: proofs. *)
From mathcomp Require Import all_ssreflect all_algebra.
From Verif Require Import RingId RingId2 MatrixSpec KpcaM KpcaSpec LssvmM LssvmSpec LssvmMProofs LssvmMonoProofs CenterM OriginSpec.
Set Implicit Arguments. Unset Strict Implicit. Unset Printing Implicit Defensive.
Import GRing.Theory Num.Theory.
Local Open Scope ring_scope.

Section Origin.
  Variable R : rcfType.
  Implicit Types x y c : R.
  Lemma other_originE m n (f : 'cV[R]_m) (g : 'cV[R]_n) (K : 'M[R]_(m, n)) :
    other_origin f g K = K + f *m (ones R n)^T + ones R m *m g^T.
  Proof.
    apply/matrixP => i j. rewrite [LHS]mxE [RHS]mxE [X in _ = X + _]mxE.
    congr (_ + _ + _); rewrite mxE big_ord1 !mxE ?mulr1 ?mul1r //.
  Qed.
  Lemma sum_same n x : (\sum_(i < n) x)%R = n%:R * x.
  Proof. by rewrite sumr_const card_ord -[x *+ n]mulr_natl. Qed.
  Lemma mean_const n x : (0 < n)%N -> ((n%:R : R)^-1 * (\sum_(i < n) x))%R = x.
  Proof. move=> Hn. by rewrite sum_same mulrA mulVf ?mul1r // pnatr_eq0 -lt0n. Qed.

  (** Means of a kernel with another origin. *)
  Lemma means_other m n (f : 'cV[R]_m) (g : 'cV[R]_n) (K : 'M[R]_(m, n)) i : (0 < n)%N ->
    row_means (other_origin f g K) i 0 = row_means K i 0 + f i 0 + (n%:R : R)^-1 * \sum_j g j 0.
  Proof.
    move=> Hn. rewrite [LHS]mxE [X in X + _ + _]mxE. under eq_bigr do rewrite mxE. rewrite !big_split /= !mulrDr. by rewrite mean_const.
  Qed.
  Lemma total_other n (f : 'cV[R]_n) (K : 'M[R]_n) : (0 < n)%N ->
    total_mean (other_origin f f K) = total_mean K + ((n%:R : R)^-1 * \sum_j f j 0) + (n%:R : R)^-1 * \sum_j f j 0.
  Proof.
    move=> Hn. rewrite /total_mean. under eq_bigr do rewrite (means_other _ _ _ _ Hn). rewrite !big_split /= !mulrDr.
    by rewrite (mean_const _ Hn).
  Qed.

  (** Centering does not see the origin. *)
  Theorem center_sample_origin n (f : 'cV[R]_n) (K : 'M[R]_n) : (0 < n)%N -> center_sample (other_origin f f K) = center_sample K.
  Proof.
    move=> Hn. apply/matrixP => i j. rewrite [LHS]mxE [RHS]mxE !(means_other _ _ _ _ Hn) (total_other _ _ Hn) [other_origin _ _ _ _ _]mxE.
    exact: origin_identity.
  Qed.
  Theorem center_oos_origin n (f : 'cV[R]_n) (K : 'M[R]_n) m (g : 'cV[R]_m) (Kx : 'M[R]_(m, n)) : (0 < n)%N ->
    center_oos (other_origin f f K) (other_origin g f Kx) = center_oos K Kx.
  Proof.
    move=> Hn. apply/matrixP => i j. rewrite [LHS]mxE [RHS]mxE !(means_other _ _ _ _ Hn) (total_other _ _ Hn) [other_origin _ _ _ _ _]mxE.
    exact: origin_identity.
  Qed.
  Theorem center_new_origin n (f : 'cV[R]_n) (K : 'M[R]_n) m p (g : 'cV[R]_m) (h : 'cV[R]_p) (Kx : 'M[R]_(m, n)) (Ky : 'M[R]_(p, n))
      (Kxy : 'M[R]_(m, p)) : (0 < n)%N ->
    center_new (other_origin f f K) (other_origin g f Kx) (other_origin h f Ky) (other_origin g h Kxy) = center_new K Kx Ky Kxy.
  Proof.
    move=> Hn. apply/matrixP => i j. rewrite [LHS]mxE [RHS]mxE !(means_other _ _ _ _ Hn) (total_other _ _ Hn) [other_origin _ _ _ _ _]mxE.
    exact: origin_identity.
  Qed.

  (** What changes the origin. *)
  Lemma half_double x : (2%:R^-1 + 2%:R^-1) * x = x.
  Proof. by rewrite -mulr2n -[_ *+ 2]mulr_natl mulfV ?mul1r // pnatr_eq0. Qed.
  Lemma half_distances_origin m n d (X : 'M[R]_(m, d)) (Y : 'M[R]_(n, d)) :
    half_distances X Y = other_origin (\col_i (- (2%:R^-1 * \sum_l X i l ^+ 2))) (\col_j (- (2%:R^-1 * \sum_l Y j l ^+ 2))) (X *m Y^T).
  Proof.
    apply/matrixP => i j. rewrite !mxE.
    have -> : \sum_l (X i l - Y j l) ^+ 2 = \sum_l X i l ^+ 2 + \sum_l Y j l ^+ 2 - (\sum_l X i l * Y^T l j + \sum_l X i l * Y^T l j).
    { rewrite -!big_split -sumrB /=. apply: eq_bigr => l _. rewrite mxE !expr2. exact: square_diff_identity. }
    by rewrite distance_identity half_double.
  Qed.
  Lemma seen_from_origin m n d (c : 'rV[R]_d) (X : 'M[R]_(m, d)) (Y : 'M[R]_(n, d)) :
    seen_from c X *m (seen_from c Y)^T =
    other_origin (\col_i (- (\sum_l X i l * c 0 l) + 2%:R^-1 * \sum_l c 0 l * c 0 l))
                 (\col_j (- (\sum_l Y j l * c 0 l) + 2%:R^-1 * \sum_l c 0 l * c 0 l)) (X *m Y^T).
  Proof.
    apply/matrixP => i j. rewrite !mxE.
    have -> : \sum_l seen_from c X i l * (seen_from c Y)^T l j =
       \sum_l X i l * Y^T l j - \sum_l X i l * c 0 l - \sum_l Y j l * c 0 l + \sum_l c 0 l * c 0 l.
    { rewrite -!sumrB -big_split /=. apply: eq_bigr => l _. rewrite !mxE. exact: seen_identity. }
    rewrite -{1}(half_double (\sum_l c 0 l * c 0 l)) mulrDl !addrA. congr (_ + _). rewrite -!addrA. congr (_ + _). congr (_ + _). exact: addrC.
  Qed.

  (** Means of centered matrices. *)
  Lemma sum_row_means n (K : 'M[R]_n) : (0 < n)%N -> \sum_i row_means K i 0 = n%:R * total_mean K.
  Proof. move=> Hn. by rewrite /total_mean mulrA mulfV ?mul1r // pnatr_eq0 -lt0n. Qed.
  Lemma sum_row m n (K : 'M[R]_(m, n)) i : (0 < n)%N -> \sum_j K i j = n%:R * row_means K i 0.
  Proof. move=> Hn. by rewrite mxE mulrA mulfV ?mul1r // pnatr_eq0 -lt0n. Qed.
  Lemma center_rows n (K : 'M[R]_n) i : (0 < n)%N -> \sum_j center_sample K i j = 0.
  Proof.
    move=> Hn. under eq_bigr do rewrite mxE. rewrite big_split !sumrB /= !sum_same (sum_row _ _ Hn) (sum_row_means _ Hn).
    by rewrite subrr sub0r addNr.
  Qed.
  Lemma center_oos_rows n (K : 'M[R]_n) m (Kx : 'M[R]_(m, n)) i : (0 < n)%N -> \sum_j center_oos K Kx i j = 0.
  Proof.
    move=> Hn. under eq_bigr do rewrite mxE. rewrite big_split !sumrB /= !sum_same (sum_row _ _ Hn) (sum_row_means _ Hn).
    by rewrite subrr sub0r addNr.
  Qed.
  Lemma center_tr n (K : 'M[R]_n) : K^T = K -> (center_sample K)^T = center_sample K.
  Proof.
    move=> S. apply/matrixP => i j. rewrite !mxE. have -> : K j i = K i j by rewrite -[in LHS]S mxE.
    congr (_ + _). by rewrite -!addrA [X in _ + X]addrC.
  Qed.
  (** Centered matrices stay. *)
  Lemma zero_means m n (K : 'M[R]_(m, n)) : (forall i, \sum_j K i j = 0) -> row_means K = 0.
  Proof. move=> H. apply/matrixP => i j. by rewrite !mxE H mulr0. Qed.
  Lemma zero_total n (K : 'M[R]_n) : (forall i, \sum_j K i j = 0) -> total_mean K = 0.
  Proof. move=> H. by rewrite /total_mean (zero_means H) big1 ?mulr0 // => i _; rewrite mxE. Qed.

  (** The two ways of centering agree. *)
  Lemma center_features_seen n d (Phi : 'M[R]_(n, d)) m (phi : 'M[R]_(m, d)) : center_features Phi phi = seen_from (feature_mean Phi) phi.
  Proof. by []. Qed.
  Lemma centered_sum n d (Phi : 'M[R]_(n, d)) j : (0 < n)%N -> \sum_i center_features Phi Phi i j = 0.
  Proof.
    move=> Hn. under eq_bigr do rewrite mxE. rewrite sumrB sum_same mxE mulrA mulfV ?mul1r ?subrr //.
    by rewrite pnatr_eq0 -lt0n.
  Qed.
  Lemma gram_rows n d (Phi : 'M[R]_(n, d)) m (phi : 'M[R]_(m, d)) i : (forall j, \sum_i Phi i j = 0) -> \sum_j (phi *m Phi^T) i j = 0.
  Proof.
    move=> H. under eq_bigr do rewrite mxE. rewrite exchange_big /=. rewrite big1 // => l _. under eq_bigr do rewrite mxE.
    by rewrite -mulr_sumr H mulr0.
  Qed.
  Theorem center_explicit n d (Phi : 'M[R]_(n, d)) : (0 < n)%N ->
    center_sample (Phi *m Phi^T) = center_features Phi Phi *m (center_features Phi Phi)^T.
  Proof.
    move=> Hn. have Z : forall i, \sum_j (center_features Phi Phi *m (center_features Phi Phi)^T) i j = 0.
    { move=> i. apply: gram_rows => j. exact: centered_sum. }
    rewrite -[LHS](center_sample_origin (\col_i (- (\sum_l Phi i l * feature_mean Phi 0 l) + 2%:R^-1 * \sum_l feature_mean Phi 0 l * feature_mean Phi 0 l)) _ Hn).
    rewrite -seen_from_origin -center_features_seen. apply/matrixP => i j. rewrite mxE (zero_means Z) (zero_total Z) [(0 : 'cV_n) i 0]mxE [(0 : 'cV_n) j 0]mxE.
    by rewrite !subr0 addr0.
  Qed.
  Theorem center_explicit_oos n d (Phi : 'M[R]_(n, d)) m (phi : 'M[R]_(m, d)) : (0 < n)%N ->
    center_oos (Phi *m Phi^T) (phi *m Phi^T) = center_features Phi phi *m (center_features Phi Phi)^T.
  Proof.
    move=> Hn. have Z : forall i, \sum_j (center_features Phi Phi *m (center_features Phi Phi)^T) i j = 0.
    { move=> i. apply: gram_rows => j. exact: centered_sum. }
    have Zx : forall i, \sum_j (center_features Phi phi *m (center_features Phi Phi)^T) i j = 0.
    { move=> i. apply: gram_rows => j. exact: centered_sum. }
    rewrite -[LHS](center_oos_origin (\col_i (- (\sum_l Phi i l * feature_mean Phi 0 l) + 2%:R^-1 * \sum_l feature_mean Phi 0 l * feature_mean Phi 0 l)) _
      (\col_i (- (\sum_l phi i l * feature_mean Phi 0 l) + 2%:R^-1 * \sum_l feature_mean Phi 0 l * feature_mean Phi 0 l)) _ Hn).
    rewrite -!seen_from_origin -!center_features_seen. apply/matrixP => i j.
    rewrite mxE (zero_means Z) (zero_means Zx) (zero_total Z) [(0 : 'cV_m) i 0]mxE [(0 : 'cV_n) j 0]mxE.
    by rewrite !subr0 addr0.
  Qed.

  (** *** LS-SVM *)
  Section Train.
    Variables (n q : nat) (K : 'M[R]_n) (g : R) (f : 'cV[R]_n).
    Lemma system_other : dual_system (other_origin f f K) g =
      block_mx 1%:M f 0 1%:M *m dual_system K g *m (block_mx 1%:M f 0 1%:M)^T.
    Proof.
      rewrite /dual_system other_originE tr_block_mx !trmx1 trmx0 !mulmx_block !mul1mx !mul0mx !mulmx1 !mulmx0 !addr0 !add0r.
      congr block_mx; last by rewrite mul0mx addr0. by rewrite [LHS]addrAC; congr (_ + _); rewrite addrAC.
    Qed.
    Lemma unit_shear : block_mx 1%:M f 0 1%:M \in @unitmx R (n + 1).
    Proof. by rewrite unitmxE det_ublock !det1 mulr1 unitr1. Qed.
    Theorem solve_other (Y h : 'M[R]_(n, q)) b : solve_dual K g Y = Some (h, b) ->
      solve_dual (other_origin f f K) g Y = Some (h, b - f^T *m h).
    Proof.
      move=> /solve_dual_inv [U H]. apply: solve_dual_from.
      { by rewrite system_other !unitmx_mul unitmx_tr unit_shear U. }
      rewrite system_other -!mulmxA.
      have -> : (block_mx 1%:M f 0 1%:M)^T *m col_mx h (b - f^T *m h) = col_mx h b.
      { rewrite tr_block_mx !trmx1 trmx0 mul_block_col !mul1mx mul0mx addr0. congr col_mx. by rewrite addrC subrK. }
      rewrite H /dual_rhs mul_block_col !mul1mx mulmx0 mul0mx !addr0. by [].
    Qed.
    Lemma solved_sums (Y h : 'M[R]_(n, q)) b : solve_dual K g Y = Some (h, b) -> (ones R n)^T *m h = 0.
    Proof. move=> /solve_dual_inv [_]. rewrite /dual_system /dual_rhs mul_block_col mul0mx addr0 => H. by case: (eq_col_mx H). Qed.
    Theorem predict_other (Y h : 'M[R]_(n, q)) b m (e : 'cV[R]_m) (k : 'M[R]_(m, n)) : solve_dual K g Y = Some (h, b) ->
      predict_dual 1 h (b - f^T *m h) (other_origin e f k) = predict_dual 1 h b k.
    Proof.
      move=> S. rewrite /predict_dual other_originE !mulmxDl -[e *m _ *m _]mulmxA (solved_sums S) mulmx0 addr0.
      rewrite sqrtr1 !scale1r mulmxBr -[ones R m *m f^T *m h]mulmxA. by rewrite -addrA [X in _ + X]addrC subrK.
    Qed.
  End Train.
  Lemma center_other n (K : 'M[R]_n) : let f := \col_i (- row_means K i 0 + 2%:R^-1 * total_mean K) in
    center_sample K = other_origin f f K.
  Proof.
    move=> f. apply/matrixP => i j. rewrite [LHS]mxE [RHS]mxE ![f _ _]mxE -{1}(half_double (total_mean K)) mulrDl !addrA.
    congr (_ + _). exact: addrAC.
  Qed.
  Lemma center_oos_other n (K : 'M[R]_n) m (Kx : 'M[R]_(m, n)) : let f := \col_i (- row_means K i 0 + 2%:R^-1 * total_mean K) in
    center_oos K Kx = other_origin (\col_i (- row_means Kx i 0 + 2%:R^-1 * total_mean K)) f Kx.
  Proof.
    move=> f. set e := (\col_i _ : 'cV[R]_m). apply/matrixP => i j. rewrite [LHS]mxE [RHS]mxE [f _ _]mxE [e _ _]mxE -{1}(half_double (total_mean K)) mulrDl !addrA.
    congr (_ + _). exact: addrAC.
  Qed.
  Theorem train_centered n q (K : 'M[R]_n) g (Y h : 'M[R]_(n, q)) b : solve_dual K g Y = Some (h, b) ->
    exists b', solve_dual (center_sample K) g Y = Some (h, b') /\
      forall m (Kx : 'M[R]_(m, n)), predict_dual 1 h b' (center_oos K Kx) = predict_dual 1 h b Kx.
  Proof.
    move=> S. set f := \col_i (- row_means K i 0 + 2%:R^-1 * total_mean K). exists (b - f^T *m h). split.
    - rewrite center_other. exact: solve_other.
    - move=> m Kx. rewrite center_oos_other. exact: predict_other S.
  Qed.
  Theorem train_distances n q d (X : 'M[R]_(n, d)) g (Y h : 'M[R]_(n, q)) b : solve_dual (X *m X^T) g Y = Some (h, b) ->
    exists b', solve_dual (half_distances X X) g Y = Some (h, b') /\
      forall m (Z : 'M[R]_(m, d)), predict_dual 1 h b' (half_distances Z X) = predict_dual 1 h b (Z *m X^T).
  Proof.
    move=> S. set f := \col_i (- (2%:R^-1 * \sum_l X i l ^+ 2)). exists (b - f^T *m h). split.
    - rewrite half_distances_origin. exact: solve_other.
    - move=> m Z. rewrite half_distances_origin. exact: predict_other S.
  Qed.
  Theorem train_moved n q d (X : 'M[R]_(n, d)) (c : 'rV[R]_d) g (Y h : 'M[R]_(n, q)) b : solve_dual (X *m X^T) g Y = Some (h, b) ->
    exists b', solve_dual (seen_from c X *m (seen_from c X)^T) g Y = Some (h, b') /\
      forall m (Z : 'M[R]_(m, d)), predict_dual 1 h b' (seen_from c Z *m (seen_from c X)^T) = predict_dual 1 h b (Z *m X^T).
  Proof.
    move=> S. set f := \col_i (- (\sum_l X i l * c 0 l) + 2%:R^-1 * \sum_l c 0 l * c 0 l). exists (b - f^T *m h). split.
    - rewrite seen_from_origin. exact: solve_other.
    - move=> m Z. rewrite seen_from_origin. exact: predict_other S.
  Qed.

  (** *** Conditionally positive kernels *)
  Lemma qform_other n (f : 'cV[R]_n) (K : 'M[R]_n) (c : 'cV[R]_n) : \sum_i c i 0 = 0 -> qform (other_origin f f K) c = qform K c.
  Proof.
    move=> Z. have E : (ones R n)^T *m c = 0.
    { apply/matrixP => i j. rewrite !mxE. rewrite -[RHS]Z. apply: eq_bigr => l _. by rewrite !mxE mul1r ord1. }
    have E' : c^T *m ones R n = 0 by rewrite -[LHS]trmxK trmx_mul trmxK E trmx0.
    rewrite /qform other_originE !mulmxDr !mulmxDl -!mulmxA E !mulmx0 addr0 [c^T *m (ones R n *m _)]mulmxA E' mul0mx addr0. by [].
  Qed.
  Lemma qform_translate n (M : 'M[R]_n) (c : 'cV[R]_n) x : M^T = M -> (forall i, \sum_j M i j = 0) ->
    qform M (c - x *: ones R n) = qform M c.
  Proof.
    move=> S Z. have E : M *m ones R n = 0.
    { apply/matrixP => i j. rewrite !mxE. rewrite -[RHS](Z i). apply: eq_bigr => l _. by rewrite mxE mulr1. }
    have E' : (ones R n)^T *m M = 0 by rewrite -[LHS]trmxK trmx_mul trmxK S E trmx0.
    rewrite /qform -mulmxA mulmxBr -scalemxAr E scaler0 subr0 mulmxA [(_ - _)^T]raddfB /= [(x *: _)^T]linearZ /= mulmxBl -scalemxAl E' scaler0 subr0. by [].
  Qed.
  Theorem center_psd n (K : 'M[R]_n) : (0 < n)%N -> K^T = K -> (psd (center_sample K) <-> conditionally_psd K).
  Proof.
    move=> Hn S. split.
    - move=> P c Z. have := P c. by rewrite center_other (qform_other _ _ Z).
    - move=> P c. rewrite -(qform_translate c ((n%:R : R)^-1 * \sum_i c i 0) (center_tr S)); last by move=> i; exact: center_rows.
      set c' := c - _. have Z : \sum_i c' i 0 = 0.
      { rewrite /c'. under eq_bigr do rewrite !mxE mulr1. rewrite sumrB sum_same mulrA mulfV ?mul1r ?subrr //.
        by rewrite pnatr_eq0 -lt0n. }
      rewrite center_other (qform_other _ _ Z). exact: P.
  Qed.
  Theorem conditional_solves n q (K : 'M[R]_n) g (Y : 'M[R]_(n, q)) : (0 < n)%N -> K^T = K -> conditionally_psd K -> 0 < g ->
    exists h b, solve_dual K g Y = Some (h, b).
  Proof.
    move=> Hn S P G. have Pc := proj2 (center_psd Hn S) P.
    have [h [b [E _]]] := solve_dual_kkt Pc G Hn Y. set f := \col_i (- row_means K i 0 + 2%:R^-1 * total_mean K).
    exists h. eexists. have := solve_other (- f) E.
    have -> : other_origin (- f) (- f) (center_sample K) = K; last by move=> ->.
    have Ee i : (- f) i 0 = - f i 0 by rewrite mxE.
    apply/matrixP => i j. rewrite center_other mxE [other_origin _ _ _ _ _]mxE !Ee -/f.
    by rewrite [X in X - _]addrAC addrK addrK.
  Qed.
  Lemma half_distances_conditional n d (X : 'M[R]_(n, d)) : conditionally_psd (half_distances X X).
  Proof. move=> c Z. rewrite half_distances_origin (qform_other _ _ Z). exact: outer_psd. Qed.
  Theorem center_distances n d (X : 'M[R]_(n, d)) : (0 < n)%N -> center_sample (half_distances X X) = center_sample (X *m X^T).
  Proof. move=> Hn. by rewrite half_distances_origin (center_sample_origin _ _ Hn). Qed.
End Origin.
