(** Stability of least-squares support vector machines: proofs. *)
From mathcomp Require Import all_ssreflect all_fingroup all_algebra.
From Verif Require Import RingId MatrixSpec KpcaM KpcaSpec LssvmM LssvmSpec LssvmMProofs LssvmLossProofs LssvmMonoProofs StableSpec.
Set Implicit Arguments. Unset Strict Implicit. Unset Printing Implicit Defensive.
Import GRing.Theory Num.Theory Order.POrderTheory Order.TotalTheory.
Local Open Scope ring_scope.

Section Smoother.
  Variables (R : rcfType) (n q : nat) (K : 'M[R]_n) (g : R).
  Hypothesis P : psd K.
  Hypothesis npos : (0 < n)%N.
  Hypothesis G : 0 < g.

  (** One output: targets [D], fitted values [F], residuals [E]. *)
  Section One.
    Variables (D h F : 'cV[R]_n) (b : 'rV[R]_1).
    Hypothesis H : kkt K g D h b.
    Hypothesis HF : F = D - g *: h.
    Lemma fitted : F = K *m h + rows_all n b.
    Proof. case: H => E _. by rewrite HF -E opprB addrCA subrr addr0. Qed.
    Lemma fit_residual : 0 <= dv F (g *: h).
    Proof.
      rewrite fitted dvDl [dv (rows_all n b) _]dvC dvZr dvZl.
      have [_ S] := H. rewrite (dv_rows b S) mulr0 addr0. apply: mulr_ge0; first exact: ltW.
      rewrite dvC /dv mulmxA. exact: P.
    Qed.
    Lemma split_target : D = F + g *: h.
    Proof. by rewrite HF subrK. Qed.
    Lemma energy : dv F F + dv (g *: h) (g *: h) <= dv D D.
    Proof.
      rewrite split_target dvDl !dvDr [dv (g *: h) F]dvC.
      have -> : dv F F + dv F (g *: h) + (dv F (g *: h) + dv (g *: h) (g *: h)) = dv F F + dv (g *: h) (g *: h) + (dv F (g *: h) + dv F (g *: h)).
        by rewrite [dv F (g *: h) + dv (g *: h) _]addrC addrACA.
      rewrite ler_addl. exact: (addr_ge0 fit_residual fit_residual).
    Qed.
    Lemma fit_target : dv F F <= dv F D <= dv D D.
    Proof.
      apply/andP. split.
      - rewrite {1}split_target dvDr ler_addl. exact: fit_residual.
      - rewrite {2}split_target dvDl ler_addl dvC -[D]/(D) {1}split_target dvDl.
        apply: addr_ge0; [exact: fit_residual | exact: dv_ge0].
    Qed.
    Lemma fit_sum : \sum_i F i 0 = \sum_i D i 0.
    Proof.
      have [_ S] := H. apply/eqP. rewrite eq_sym -subr_eq0 -sumrB. apply/eqP.
      transitivity (g * \sum_i h i 0); last by rewrite S mulr0.
      rewrite big_distrr /=. apply: eq_bigr => i _. by rewrite HF !mxE opprB addrCA subrr addr0.
    Qed.
  End One.
  Lemma adjoint (D D' h h' : 'cV[R]_n) b b' : K^T = K -> kkt K g D h b -> kkt K g D' h' b' ->
    dv (D - g *: h) D' = dv D (D' - g *: h').
  Proof.
    move=> Sy H H'. rewrite dvDl dvNl dvDr dvNr. congr (_ - _). rewrite dvZl dvZr. congr (_ * _).
    have E : forall (X x : 'cV[R]_n) c, kkt K g X x c -> X = K *m x + rows_all n c + g *: x.
      move=> X x c [<- _]. by rewrite addrC subrK.
    rewrite (E _ _ _ H') dvDr dvDr (dv_rows b' (proj2 H)) addr0 dvZr.
    rewrite [in RHS](E _ _ _ H) !dvDl [dv (rows_all n b) _]dvC (dv_rows b (proj2 H')) addr0 dvZl.
    congr (_ + _). by rewrite /dv trmx_mul Sy mulmxA.
  Qed.
End Smoother.

Lemma sub4 (V : zmodType) (a b c d : V) : (a - b) - (c - d) = a - c - (b - d).
Proof. by rewrite !opprB addrACA [RHS]addrACA [- c + _]addrC. Qed.

Section Stability.
  Variables (R : rcfType) (n q : nat) (K : 'M[R]_n) (g : R).
  Hypothesis P : psd K.
  Hypothesis npos : (0 < n)%N.
  Hypothesis G : 0 < g.
  Variables (Y Y' h h' : 'M[R]_(n, q)) (b b' : 'rV[R]_q).
  Hypothesis S : solve_dual K g Y = Some (h, b).
  Hypothesis S' : solve_dual K g Y' = Some (h', b').

  Lemma fit_column (Z z : 'M[R]_(n, q)) c j : solve_dual K g Z = Some (z, c) ->
    col j (predict_dual 1 z c K) = col j Z - g *: col j z.
  Proof.
    move=> Sz. have Er := residual_one P G npos Sz.
    have -> : predict_dual 1 z c K = Z - g *: z by rewrite -Er opprB addrCA subrr addr0.
    by rewrite linearB /= linearZ.
  Qed.
  Lemma difference j : kkt K g (col j Y - col j Y') (col j h - col j h') (col j b - col j b') /\
    col j (predict_dual 1 h b K) - col j (predict_dual 1 h' b' K) = col j Y - col j Y' - g *: (col j h - col j h').
  Proof.
    split; last by rewrite (fit_column j S) (fit_column j S') scalerBr sub4.
    have [E Z] := kkt_col j (solved P npos G S). have [E' Z'] := kkt_col j (solved P npos G S'). split.
    - rewrite scalerBr -E -E' mulmxBr.
      have -> : rows_all n (col j b - col j b') = rows_all n (col j b) - rows_all n (col j b') by apply/matrixP => x y; rewrite !mxE.
      rewrite [RHS]sub4. congr (_ - _). by rewrite opprD addrACA.
    - move=> k. transitivity (\sum_i col j h i k - \sum_i col j h' i k); last by rewrite Z Z' subr0.
      rewrite -sumrB. by apply: eq_bigr => i _; rewrite !mxE.
  Qed.
  Lemma dv_squares (u : 'cV[R]_n) : dv u u = \sum_i u i 0 ^+ 2.
  Proof. rewrite dv_sum. by apply: eq_bigr => i _; rewrite expr2. Qed.
  Lemma resid_diff j : g *: (col j h - col j h') = col j (Y - predict_dual 1 h b K) - col j (Y' - predict_dual 1 h' b' K).
  Proof. rewrite (residual_one P G npos S) (residual_one P G npos S'). apply/matrixP => x y. by rewrite !mxE mulrBr. Qed.

  Lemma sub_col (A B : 'M[R]_(n, q)) j i : (col j A - col j B) i 0 = A i j - B i j.
  Proof. by rewrite [LHS]mxE [X in _ + X]mxE ![col _ _ _ _]mxE. Qed.
  Lemma sub_col2 (A B C D : 'M[R]_(n, q)) j i : (col j (A - B) - col j (C - D)) i 0 = (A i j - B i j) - (C i j - D i j).
  Proof. rewrite sub_col. by congr (_ - _); rewrite [LHS]mxE [X in _ + X]mxE. Qed.
  Theorem stable j : \sum_i (predict_dual 1 h b K i j - predict_dual 1 h' b' K i j) ^+ 2 +
      \sum_i ((Y i j - predict_dual 1 h b K i j) - (Y' i j - predict_dual 1 h' b' K i j)) ^+ 2 <= \sum_i (Y i j - Y' i j) ^+ 2.
  Proof.
    have [H HF] := difference j. have := energy P G H HF. rewrite (resid_diff j) !dv_squares.
    by under eq_bigr do rewrite sub_col; under [X in _ + X <= _]eq_bigr do rewrite sub_col2; under [X in _ <= X]eq_bigr do rewrite sub_col.
  Qed.

  Lemma mean_square (u : 'cV[R]_n) : n%:R^-1 * (\sum_i u i 0) ^+ 2 <= dv u u.
  Proof.
    set t := \sum_i u i 0. have N : n%:R != 0 :> R by rewrite pnatr_eq0 -lt0n.
    pose m : 'cV[R]_n := const_mx (n%:R^-1 * t).
    have E1 : dv u m = n%:R^-1 * t ^+ 2.
      rewrite dv_sum. transitivity (\sum_i u i 0 * (n%:R^-1 * t)); first by apply: eq_bigr => i _; rewrite [m _ _]mxE.
      by rewrite -big_distrl /= -/t mulrCA -expr2.
    have E2 : dv m m = n%:R^-1 * t ^+ 2.
      rewrite dv_sum. transitivity (\sum_(i < n) (n%:R^-1 * t) * (n%:R^-1 * t)); first by apply: eq_bigr => i _; rewrite [m _ _]mxE.
      rewrite sumr_const card_ord -[LHS]mulr_natl !mulrA mulfV // mul1r. by rewrite mulrAC [LHS]mulrC mulrA.
    have := dv_ge0 (u - m). rewrite dvDl !dvDr !dvNl !dvNr opprK [dv m u]dvC E1 E2 addNr addr0. by rewrite subr_ge0.
  Qed.
  Theorem leverage j i : (forall r, r != i -> Y r j = Y' r j) ->
    n%:R^-1 * (Y i j - Y' i j) ^+ 2 <= (predict_dual 1 h b K i j - predict_dual 1 h' b' K i j) * (Y i j - Y' i j) <= (Y i j - Y' i j) ^+ 2.
  Proof.
    move=> O. have [H HF] := difference j. have /andP [L U] := fit_target P G H HF.
    have Z : forall r, r != i -> (col j Y - col j Y') r 0 = 0 by move=> r Nr; rewrite sub_col O // subrr.
    have ED : dv (col j Y - col j Y') (col j Y - col j Y') = (Y i j - Y' i j) ^+ 2.
      rewrite dv_squares (bigD1 i) //= big1 ?addr0 ?sub_col // => r Nr. by rewrite Z // expr0n.
    have EF : dv (col j (predict_dual 1 h b K) - col j (predict_dual 1 h' b' K)) (col j Y - col j Y') =
              (predict_dual 1 h b K i j - predict_dual 1 h' b' K i j) * (Y i j - Y' i j).
      rewrite dv_sum (bigD1 i) //= big1 ?addr0 ?sub_col // => r Nr. by rewrite Z // mulr0.
    rewrite EF ED in L U. rewrite U andbT. apply: le_trans L.
    apply: le_trans (mean_square _). rewrite (fit_sum H HF) (bigD1 i) //= big1 ?addr0 ?sub_col //.
  Qed.
  Theorem influence_symmetric j : K^T = K ->
    \sum_i predict_dual 1 h b K i j * Y' i j = \sum_i Y i j * predict_dual 1 h' b' K i j.
  Proof.
    move=> Sy. have := adjoint Sy (kkt_col j (solved P npos G S)) (kkt_col j (solved P npos G S')).
    rewrite -(fit_column j S) -(fit_column j S') !dv_sum.
    have E : forall A B : 'M[R]_(n, q), \sum_i col j A i 0 * col j B i 0 = \sum_i A i j * B i j.
      by move=> A B; apply: eq_bigr => i _; rewrite ![col _ _ _ _]mxE.
    by rewrite !E.
  Qed.
End Stability.

(** * Dropping points *)
Section Drop.
  Variables (R : rcfType) (n m : nat) (f : 'I_m -> 'I_n).
  Hypothesis inj : injective f.

  Lemma sum_chosen (F : 'I_n -> R) : (forall i, left_out f i -> F i = 0) -> \sum_i F i = \sum_a F (f a).
  Proof.
    move=> Z. rewrite (bigID (fun i => i \in f @: [set: 'I_m])) /= [X in _ + X]big1 ?addr0.
    - rewrite big_imset /=; last by move=> a c _ _; exact: inj.
      by apply: eq_bigl => a; rewrite inE.
    - move=> i Ni. apply: Z => a. apply: contra Ni => /eqP <-. by apply/imsetP; exists a => //; rewrite inE.
  Qed.
  Lemma chosen_mul p q (k : 'M[R]_(p, n)) (h : 'M[R]_(n, q)) : (forall i, left_out f i -> forall j, h i j = 0) ->
    columns_of f k *m rows_of f h = k *m h.
  Proof.
    move=> Z. apply/matrixP => a j. rewrite !mxE (sum_chosen (F := fun i => k a i * h i j)); last by move=> i Li; rewrite Z // mulr0.
    by apply: eq_bigr => c _; rewrite !mxE.
  Qed.
  Lemma between_psd (K : 'M[R]_n) : psd K -> psd (between f K).
  Proof.
    move=> P c. pose e : 'cV[R]_n := \col_i \sum_(a | f a == i) c a 0.
    have L : forall i, left_out f i -> e i 0 = 0.
      move=> i Li. rewrite mxE big1 // => a /eqP E. by move: (Li a); rewrite E eqxx.
    have E : forall a, e (f a) 0 = c a 0.
      move=> a. rewrite mxE (eq_bigl (fun x => x == a)); first by rewrite big_pred1_eq.
      by move=> x /=; apply/eqP/eqP => [/inj|->].
    have Rc : rows_of f e = c by apply/matrixP => a j; rewrite mxE ord1 E.
    have := P e. rewrite /qform -mulmxA -(chosen_mul K) => [|i Li j]; last by rewrite ord1 L.
    rewrite Rc. have -> : (e^T *m (columns_of f K *m c)) 0 0 = (c^T *m between f K *m c) 0 0; last by [].
    rewrite -mulmxA mxE (sum_chosen (F := fun i => e^T 0 i * (columns_of f K *m c) i 0)) => [|i Li]; last by rewrite mxE L // mul0r.
    rewrite [RHS]mxE. apply: eq_bigr => a _. rewrite ![_^T _ _]mxE E. congr (_ * _).
    rewrite [LHS]mxE [RHS]mxE. apply: eq_bigr => d _. congr (_ * _). by rewrite [LHS]mxE [RHS]mxE.
  Qed.

  Variables (q : nat) (K : 'M[R]_n) (g : R) (Y h : 'M[R]_(n, q)) (b : 'rV[R]_q).
  Hypothesis P : psd K.
  Hypothesis G : 0 < g.
  Hypothesis npos : (0 < n)%N.
  Hypothesis mpos : (0 < m)%N.
  Lemma ent p r (A B C : 'M[R]_(p, r)) i j : (A - (B + C)) i j = A i j - (B i j + C i j).
  Proof. by rewrite [LHS]mxE [X in _ + X]mxE [X in - X]mxE. Qed.
  Lemma entZ p r a (A : 'M[R]_(p, r)) i j : (a *: A) i j = a * A i j.
  Proof. by rewrite mxE. Qed.
  Lemma chosen_entry (x : 'M[R]_(n, q)) : (forall i, left_out f i -> forall j, x i j = 0) ->
    forall a j, (between f K *m rows_of f x) a j = (K *m x) (f a) j.
  Proof.
    move=> Z a j. rewrite -(chosen_mul K Z) [LHS]mxE [RHS]mxE. apply: eq_bigr => c _. congr (_ * _). by rewrite [LHS]mxE [RHS]mxE.
  Qed.
  Theorem drop : solve_dual K g Y = Some (h, b) -> (forall i, left_out f i -> forall j, h i j = 0) ->
    solve_dual (between f K) g (rows_of f Y) = Some (rows_of f h, b).
  Proof.
    move=> S Z. have [E B] := solved P npos G S. apply: (solve_dual_unique (between_psd P) G mpos). split.
    - apply/matrixP => a j. have := congr1 (fun A : 'M[R]_(n, q) => A (f a) j) E. rewrite /= !ent -chosen_entry //.
      by rewrite ![rows_all _ _ _ _]mxE !entZ ![rows_of _ _ _ _]mxE.
    - move=> j. rewrite -[RHS](B j) (sum_chosen (F := fun i => h i j)) => [|i Li]; last exact: Z.
      by apply: eq_bigr => a _; rewrite mxE.
  Qed.
  Theorem drop_predict (kappa : R) p (k : 'M[R]_(p, n)) : (forall i, left_out f i -> forall j, h i j = 0) ->
    predict_dual kappa (rows_of f h) b (columns_of f k) = predict_dual kappa h b k.
  Proof. move=> Z. by rewrite /predict_dual chosen_mul. Qed.

  (** The other direction. *)
  Definition spread (h' : 'M[R]_(m, q)) : 'M[R]_(n, q) := \matrix_(i, j) \sum_(a | f a == i) h' a j.
  Lemma spread_out h' i : left_out f i -> forall j, spread h' i j = 0.
  Proof. move=> Li j. rewrite mxE big1 // => a /eqP E. by move: (Li a); rewrite E eqxx. Qed.
  Lemma spread_in h' : rows_of f (spread h') = h'.
  Proof.
    apply/matrixP => a j. rewrite !mxE (eq_bigl (fun x => x == a)); first by rewrite big_pred1_eq.
    by move=> x /=; apply/eqP/eqP => [/inj|->].
  Qed.
  Theorem add_explained h' : solve_dual (between f K) g (rows_of f Y) = Some (h', b) ->
    (forall i, left_out f i -> forall j, predict_dual 1 h' b (columns_of f K) i j = Y i j) ->
    solve_dual K g Y = Some (spread h', b).
  Proof.
    move=> S X. have [E B] := solved (between_psd P) mpos G S. apply: (solve_dual_unique P G npos). split.
    - apply/matrixP => i j. rewrite ent [rows_all _ _ _ _]mxE [RHS]mxE.
      have Kh : (K *m spread h') i j = (columns_of f K *m h') i j.
        by rewrite -(chosen_mul K (@spread_out h')) spread_in.
      case: (boolP (i \in f @: [set: 'I_m])) => [/imsetP [a _ Ea]|Ni].
      + subst i. have := congr1 (fun A : 'M[R]_(m, q) => A a j) E. rewrite /= ent.
        have -> : (between f K *m h') a j = (K *m spread h') (f a) j.
          by rewrite -{1}(spread_in h') (chosen_entry (@spread_out h')).
        rewrite ![rows_all _ _ _ _]mxE [rows_of _ _ _ _]mxE entZ => ->. congr (_ * _).
        by rewrite -{1}(spread_in h') mxE.
      + have Li : left_out f i.
          move=> a. apply: contra Ni => /eqP <-. by apply/imsetP; exists a => //; rewrite inE.
        rewrite spread_out // mulr0 Kh -(X i Li j) /predict_dual sqrtr1 scale1r rows_all_ones [X in X - _]mxE [rows_all _ _ _ _]mxE. by rewrite subrr.
    - move=> j. rewrite (sum_chosen (F := fun i => spread h' i j)) => [|i Li]; last exact: spread_out.
      rewrite -[RHS](B j). apply: eq_bigr => a _. by rewrite -{2}(spread_in h') [RHS]mxE.
  Qed.
End Drop.
