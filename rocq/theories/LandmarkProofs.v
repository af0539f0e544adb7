(** The Nystrom feature map of a larger sample: proofs. *)
From mathcomp Require Import all_ssreflect all_algebra.
From Verif Require Import RingId NystromM MatrixSpec NystromMProofs NystromOosProofs LandmarkSpec.
Set Implicit Arguments. Unset Strict Implicit. Unset Printing Implicit Defensive.
Import GRing.Theory Num.Theory Order.POrderTheory Order.TotalTheory.
Local Open Scope ring_scope.

Section Variational.
  Variables (R : rcfType) (n : nat) (K : 'M[R]_n) (s : 'rV[R]_n) (V : 'M[R]_n).
  Hypothesis E : eigendecomposition K s V.

  (** The best combination of the sample points. *)
  Lemma oos_attained (eps : R) k (Hk : (k <= n)%N) m (Kx : 'M[R]_(m, n)) (c : 'cV[R]_m) : 0 < eps ->
    exists a : 'cV[R]_n, qform (nystrom_oos eps Hk s V Kx *m (nystrom_oos eps Hk s V Kx)^T) c =
      (a^T *m (Kx^T *m c)) 0 0 + (a^T *m (Kx^T *m c)) 0 0 - qform K a.
  Proof.
    move=> He. rewrite oos_form //. set u := V^T *m (Kx^T *m c). set q := \sum_(j | _) _.
    pose w : 'cV[R]_n := \col_j (if left_out s eps k j then 0 else u j 0 / s 0 j).
    have Ps : forall j, ~~ left_out s eps k j -> s 0 j != 0.
      move=> j. rewrite /left_out negb_or -leNgt => /andP[_ H]. by rewrite gt_eqF // (lt_le_trans He H).
    exists (V *m w).
    have -> : qform K (V *m w) = q.
      rewrite (qform_sum E) mulmxA. case: E => [Ho _]. rewrite Ho mul1mx.
      rewrite [LHS](bigID (left_out s eps k)) /= big1 ?add0r => [|j Hj]; last by rewrite mxE Hj expr0n mulr0.
      apply: eq_bigr => j Hj. rewrite mxE (negbTE Hj) expr_div_n expr2 [s 0 j ^+ 2]expr2 invfM mulrCA.
      by rewrite [s 0 j * _]mulrA mulfV ?Ps // mul1r.
    have -> : ((V *m w)^T *m (Kx^T *m c)) 0 0 = q; last by rewrite addrK.
      rewrite trmx_mul -mulmxA -/u mxE [LHS](bigID (left_out s eps k)) /= big1 ?add0r => [|j Hj]; last by rewrite mxE mxE Hj mul0r.
      apply: eq_bigr => j Hj. by rewrite mxE mxE (negbTE Hj) expr2 mulrAC.
  Qed.

  (** No combination does better, if only zero eigenvalues are left out. *)
  Lemma oos_best (eps : R) k (Hk : (k <= n)%N) m (Kx : 'M[R]_(m, n)) (Kxx : 'M[R]_m) (c : 'cV[R]_m) (a : 'cV[R]_n) : 0 < eps ->
    (forall j, left_out s eps k j -> s 0 j = 0) -> psd (block_mx K Kx^T Kx Kxx) ->
    (a^T *m (Kx^T *m c)) 0 0 + (a^T *m (Kx^T *m c)) 0 0 - qform K a <=
    qform (nystrom_oos eps Hk s V Kx *m (nystrom_oos eps Hk s V Kx)^T) c.
  Proof.
    move=> He Z P. rewrite oos_form //. set u := V^T *m (Kx^T *m c).
    have Orth : V *m V^T = 1%:M by exact: (orth_rows E).
    pose w := V^T *m a.
    have Ea : (a^T *m (Kx^T *m c)) 0 0 = \sum_j w j 0 * u j 0.
      have -> : a^T *m (Kx^T *m c) = w^T *m u by rewrite /w /u trmx_mul trmxK -[RHS]mulmxA [V *m _]mulmxA Orth mul1mx.
      rewrite mxE. by apply: eq_bigr => j _; rewrite mxE.
    rewrite Ea (qform_sum E) -/w.
    have U0 : forall j, left_out s eps k j -> u j 0 = 0.
      move=> j Hj. apply/eqP/negPn/negP => Nu.
      pose t : R := - (qform Kxx c + 1) / (u j 0 + u j 0).
      have N2 : u j 0 + u j 0 != 0 by rewrite -mulr2n mulrn_eq0.
      have := P (col_mx (t *: (V *m (delta_mx j 0 : 'cV[R]_n))) c). rewrite qform_block.
      have -> : qform K (t *: (V *m (delta_mx j 0 : 'cV[R]_n))) = 0.
        rewrite (qform_sum E) -scalemxAr mulmxA. case: E => [Ho _]. rewrite Ho mul1mx.
        apply: big1 => i _. rewrite mxE mxE. case: (eqVneq i j) => [->|_]; first by rewrite (Z j Hj) mul0r.
        by rewrite mulr0 expr0n mulr0.
      have -> : \sum_i (t *: (V *m (delta_mx j 0 : 'cV[R]_n))) i 0 * (Kx^T *m c) i 0 = t * u j 0.
        transitivity (((t *: (V *m (delta_mx j 0 : 'cV[R]_n)))^T *m (Kx^T *m c)) 0 0).
          rewrite [RHS]mxE. by apply: eq_bigr => i _; rewrite [X in _ = X * _]mxE.
        rewrite linearZ /= -scalemxAl mxE trmx_mul -mulmxA -/u. congr (_ * _).
        rewrite mxE (bigD1 j) //= mxE mxE !eqxx mul1r big1 ?addr0 // => i Hi. by rewrite mxE mxE (negbTE Hi) mul0r.
      rewrite add0r -mulrDr /t mulrVK ?unitfE //= addrC opprD addrA subrr add0r.
      by rewrite leNgt oppr_lt0 ltr01.
    rewrite -big_split /= -sumrB [X in X <= _](bigID (left_out s eps k)) /= big1 ?add0r => [|j Hj]; last first.
      by rewrite (U0 j Hj) (Z j Hj) mulr0 mul0r addr0 subr0.
    apply: ler_sum => j. rewrite /left_out negb_or -leNgt => /andP[_ Hj].
    have Ps : 0 < s 0 j by exact: lt_le_trans He Hj.
    rewrite ler_pdivl_mulr // -subr_ge0.
    have -> : u j 0 ^+ 2 - (w j 0 * u j 0 + w j 0 * u j 0 - s 0 j * w j 0 ^+ 2) * s 0 j = (u j 0 - s 0 j * w j 0) ^+ 2.
      rewrite !expr2. exact: best_identity.
    exact: sqr_ge0.
  Qed.
End Variational.

Section Nested.
  Variables (R : rcfType) (n n' : nat) (at_ : 'I_n -> 'I_n').
  Variables (K : 'M[R]_n') (s : 'rV[R]_n) (V : 'M[R]_n) (s' : 'rV[R]_n') (V' : 'M[R]_n').

  Definition kernel_at : 'M[R]_n := \matrix_(i, j) K (at_ i) (at_ j).
  Definition columns_at m (Kx : 'M[R]_(m, n')) : 'M[R]_(m, n) := \matrix_(x, j) Kx x (at_ j).
  Definition place : 'M[R]_(n', n) := \matrix_(j, i) (j == at_ i)%:R.

  Lemma place_columns m (A : 'M[R]_(m, n')) : A *m place = columns_at A.
  Proof.
    apply/matrixP => x i. rewrite [LHS]mxE [RHS]mxE (bigD1 (at_ i)) //= mxE eqxx mulr1 big1 ?addr0 // => j Hj.
    by rewrite mxE (negbTE Hj) mulr0.
  Qed.
  Lemma place_kernel : place^T *m K *m place = kernel_at.
  Proof.
    rewrite place_columns. apply/matrixP => i j. rewrite [LHS]mxE [RHS]mxE mxE (bigD1 (at_ i)) //= mxE mxE eqxx mul1r big1 ?addr0 // => l Hl.
    by rewrite mxE mxE (negbTE Hl) mul0r.
  Qed.

  Hypothesis E' : eigendecomposition K s' V'.
  Hypothesis E : eigendecomposition kernel_at s V.
  Theorem more_columns (eps eps' : R) k k' (Hk : (k <= n)%N) (Hk' : (k' <= n')%N) m (Kx : 'M[R]_(m, n')) (Kxx : 'M[R]_m) :
    0 < eps -> 0 < eps' -> (forall j, left_out s' eps' k' j -> s' 0 j = 0) -> psd (block_mx K Kx^T Kx Kxx) ->
    psd (nystrom_oos eps' Hk' s' V' Kx *m (nystrom_oos eps' Hk' s' V' Kx)^T -
         nystrom_oos eps Hk s V (columns_at Kx) *m (nystrom_oos eps Hk s V (columns_at Kx))^T).
  Proof.
    move=> He He' Z P c. set G' := _ *m _^T. set G := _ *m _^T.
    have -> : qform (G' - G) c = qform G' c - qform G c.
      by rewrite /qform mulmxBr mulmxBl mxE [X in _ + X]mxE.
    rewrite subr_ge0 /G. case: (oos_attained E Hk (columns_at Kx) c He) => a ->.
    have := oos_best E' Hk' c (place *m a) He' Z P. rewrite -/G'.
    have -> : (place *m a)^T *m (Kx^T *m c) = a^T *m ((columns_at Kx)^T *m c).
      by rewrite trmx_mul -place_columns trmx_mul !mulmxA.
    have -> : qform K (place *m a) = qform kernel_at a.
      by rewrite /qform -place_kernel trmx_mul !mulmxA.
    by [].
  Qed.
End Nested.

Section Points.
  Variables (R : rcfType) (X : Type) (kf : X -> X -> R).
  Hypothesis Pk : positive_kernel kf.

  Lemma block_gram n m (y : 'I_n -> X) (z : 'I_m -> X) :
    psd (block_mx (gram kf y y) (gram kf z y)^T (gram kf z y) (gram kf z z)).
  Proof.
    case: Pk => Sk Pp.
    have <- : gram kf (fun i => match split i with inl a => y a | inr b => z b end)
                      (fun i => match split i with inl a => y a | inr b => z b end) =
              block_mx (gram kf y y) (gram kf z y)^T (gram kf z y) (gram kf z z); last exact: Pp.
    apply/matrixP => i j. rewrite mxE mxE. case: (split i) => a; rewrite mxE; case: (split j) => b; rewrite !mxE //.
  Qed.

  Theorem more_landmarks n n' (x : 'I_n -> X) (y : 'I_n' -> X) (s : 'rV[R]_n) V (s' : 'rV[R]_n') V'
      (eps eps' : R) k k' (Hk : (k <= n)%N) (Hk' : (k' <= n')%N) : among x y ->
    eigendecomposition (gram kf x x) s V -> eigendecomposition (gram kf y y) s' V' ->
    0 < eps -> 0 < eps' -> (forall j, left_out s' eps' k' j -> s' 0 j = 0) ->
    forall m (z : 'I_m -> X),
    psd (nystrom_oos eps' Hk' s' V' (gram kf z y) *m (nystrom_oos eps' Hk' s' V' (gram kf z y))^T -
         nystrom_oos eps Hk s V (gram kf z x) *m (nystrom_oos eps Hk s V (gram kf z x))^T).
  Proof.
    move=> A E E' He He' Z m z. case: (fin_all_exists A) => f Hf.
    have E1 : eigendecomposition (kernel_at f (gram kf y y)) s V.
      have -> : kernel_at f (gram kf y y) = gram kf x x; last by [].
      apply/matrixP => i j. rewrite [LHS]mxE [LHS]mxE [RHS]mxE !Hf //.
    have -> : gram kf z x = columns_at f (gram kf z y).
      apply/matrixP => i j. rewrite [RHS]mxE [RHS]mxE [LHS]mxE !Hf //.
    have H := more_columns E' E1 Hk Hk' He He' Z (block_gram y z). exact H.
  Qed.
End Points.

Section Zero.
  Variables (R : realFieldType) (m : nat).

  Lemma qform_opp (A : 'M[R]_m) c : qform (- A) c = - qform A c.
  Proof. by rewrite /qform mulmxN mulNmx mxE. Qed.
  Lemma qform_delta (A : 'M[R]_m) i : qform A (delta_mx i 0) = A i i.
  Proof. by rewrite /qform trmx_delta -rowE -colE mxE mxE. Qed.
  Lemma qform_two (A : 'M[R]_m) i j : A^T = A ->
    qform A (delta_mx i 0 + delta_mx j 0) = A i i + A j j + (A i j + A i j).
  Proof.
    move=> S. have Sij : A j i = A i j by rewrite -[in LHS]S mxE.
    have T : (delta_mx i 0 + delta_mx j 0 : 'cV[R]_m)^T = delta_mx 0 i + delta_mx 0 j by rewrite raddfD /= !trmx_delta.
    have C : forall (u : 'rV[R]_m), (u *m (delta_mx i 0 + delta_mx j 0 : 'cV[R]_m)) 0 0 = u 0 i + u 0 j.
      by move=> u; rewrite mulmxDr -!colE [LHS]mxE [X in X + _]mxE [X in _ + X]mxE.
    rewrite /qform T C mulmxDl -!rowE !mxE Sij. by rewrite [RHS]addrACA [A j j + _]addrC.
  Qed.
  Lemma both_psd (A : 'M[R]_m) : A^T = A -> psd A -> psd (- A) -> A = 0.
  Proof.
    move=> S P N. have Q : forall c, qform A c = 0.
      move=> c. apply/eqP. rewrite eq_le P andbT. have := N c. by rewrite qform_opp oppr_ge0.
    have D : forall i, A i i = 0 by move=> i; rewrite -qform_delta.
    apply/matrixP => i j. rewrite [RHS]mxE. have := qform_two i j S. rewrite Q !D !add0r => /eqP.
    by rewrite eq_sym -mulr2n mulrn_eq0 => /eqP.
  Qed.
End Zero.

Theorem same_landmarks (R : rcfType) (X : Type) (kf : X -> X -> R) (Pk : positive_kernel kf)
      n n' (x : 'I_n -> X) (y : 'I_n' -> X) (s : 'rV[R]_n) V (s' : 'rV[R]_n') V'
      (eps eps' : R) k k' (Hk : (k <= n)%N) (Hk' : (k' <= n')%N) : among x y -> among y x ->
    eigendecomposition (gram kf x x) s V -> eigendecomposition (gram kf y y) s' V' ->
    0 < eps -> 0 < eps' -> (forall j, left_out s eps k j -> s 0 j = 0) -> (forall j, left_out s' eps' k' j -> s' 0 j = 0) ->
    forall m (z : 'I_m -> X),
    nystrom_oos eps' Hk' s' V' (gram kf z y) *m (nystrom_oos eps' Hk' s' V' (gram kf z y))^T =
    nystrom_oos eps Hk s V (gram kf z x) *m (nystrom_oos eps Hk s V (gram kf z x))^T.
Proof.
  move=> A A' E E' He He' Z Z' m z. apply/eqP. rewrite -subr_eq0. apply/eqP. apply: both_psd.
  - by rewrite linearB /= !trmx_mul !trmxK.
  - exact: more_landmarks.
  - rewrite opprB. exact: more_landmarks.
Qed.
Theorem landmark_error (R : rcfType) (X : Type) (kf : X -> X -> R) (Pk : positive_kernel kf)
      n n' (x : 'I_n -> X) (y : 'I_n' -> X) (s : 'rV[R]_n) V (s' : 'rV[R]_n') V'
      (eps eps' : R) k k' (Hk : (k <= n)%N) (Hk' : (k' <= n')%N) : among x y ->
    eigendecomposition (gram kf x x) s V -> eigendecomposition (gram kf y y) s' V' ->
    0 < eps -> 0 < eps' -> (forall j, left_out s' eps' k' j -> s' 0 j = 0) ->
    forall m (z : 'I_m -> X) i,
    0 <= kf (z i) (z i) - (nystrom_oos eps' Hk' s' V' (gram kf z y) *m (nystrom_oos eps' Hk' s' V' (gram kf z y))^T) i i
      <= kf (z i) (z i) - (nystrom_oos eps Hk s V (gram kf z x) *m (nystrom_oos eps Hk s V (gram kf z x))^T) i i.
Proof.
  move=> A E E' He He' Z m z i. apply/andP; split.
  - have := oos_below E' Hk' He' (block_gram Pk y z) (delta_mx i 0). by rewrite qform_delta !mxE.
  - have := more_landmarks Pk Hk Hk' A E E' He He' Z z (delta_mx i 0).
    rewrite qform_delta. set G' := _ *m _^T. set G := _ *m _^T. rewrite mxE [X in _ + X]mxE subr_ge0 => H.
    by rewrite ler_add2l ler_opp2.
Qed.
