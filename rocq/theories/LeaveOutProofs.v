(** Training with and without some of the points: proofs. *)
From mathcomp Require Import all_ssreflect all_fingroup all_algebra.
From Verif Require Import RingId MatrixSpec KpcaM KpcaSpec LssvmM LssvmSpec LssvmMProofs LssvmLossProofs LssvmMonoProofs StableSpec StableProofs.
Set Implicit Arguments. Unset Strict Implicit. Unset Printing Implicit Defensive.
Import GRing.Theory Num.Theory Order.POrderTheory Order.TotalTheory.
Local Open Scope ring_scope.

Section Numbers.
  Variable R : realFieldType.
  Lemma between_two (a c : R) : a * c - a ^+ 2 <= 4%:R^-1 * c ^+ 2.
  Proof.
    pose x := c / 2%:R. have Ec : c = x + x by rewrite -mulr2n -[RHS]mulr_natr mulfVK // pnatr_eq0.
    have -> : 4%:R^-1 * c ^+ 2 = x ^+ 2.
      have N : (4%:R : R) != 0 by rewrite pnatr_eq0.
      by apply: (mulfI N); rewrite mulVKf // Ec -mulr2n exprMn_n -[LHS]mulr_natl.
    rewrite -subr_ge0. have -> : x ^+ 2 - (a * c - a ^+ 2) = (a - x) ^+ 2; last exact: sqr_ge0.
    by rewrite sqrrB Ec mulrDr -mulr2n opprB addrCA addrA addrAC.
  Qed.
  Lemma half_way (a c : R) : a ^+ 2 <= a * c -> a ^+ 2 <= c ^+ 2.
  Proof.
    move=> H. have T : a * c + a * c <= a ^+ 2 + c ^+ 2.
      rewrite -subr_ge0. have -> : a ^+ 2 + c ^+ 2 - (a * c + a * c) = (a - c) ^+ 2; last exact: sqr_ge0.
      by rewrite sqrrB mulr2n addrAC.
    have := le_trans (ler_add H H) T. by rewrite ler_add2l.
  Qed.
End Numbers.

Section Fold.
  Variables (R : rcfType) (n m q : nat) (f : 'I_m -> 'I_n).
  Hypothesis inj : injective f.
  Variables (K : 'M[R]_n) (g : R).
  Hypothesis P : psd K.
  Hypothesis npos : (0 < n)%N.
  Hypothesis mpos : (0 < m)%N.
  Hypothesis G : 0 < g.
  Variables (Y h : 'M[R]_(n, q)) (b : 'rV[R]_q) (h' : 'M[R]_(m, q)) (b' : 'rV[R]_q).
  Hypothesis S : solve_dual K g Y = Some (h, b).
  Hypothesis S' : solve_dual (between f K) g (rows_of f Y) = Some (h', b').
  Let p := predict_dual 1 h b K.
  Let p' := predict_dual 1 h' b' (columns_of f K).

  Lemma out_codom i : (i \notin codom f) -> left_out f i.
  Proof. move=> N a. apply: contra N => /eqP <-. exact: codom_f. Qed.
  Lemma whole_residual i j : Y i j - p i j = g * h i j.
  Proof. have Er := residual_one P G npos S. by rewrite (sub_entry i j Er) mxE. Qed.
  Lemma part_residual a j : Y (f a) j - p' (f a) j = g * h' a j.
  Proof.
    have Er := residual_one (between_psd inj P) G mpos S'. have := sub_entry a j Er. rewrite entZ => <-.
    rewrite [rows_of _ _ _ _]mxE. congr (_ - _). rewrite /p' /predict_dual [LHS]mxE [RHS]mxE. congr (_ + _); last by rewrite !mxE; congr (_ * _); apply: eq_bigr => k _; rewrite !mxE.
    rewrite [LHS]mxE [RHS]mxE. apply: eq_bigr => c _. congr (_ * _). by rewrite [LHS]mxE [RHS]mxE.
  Qed.
  Let H' := spread f h'.
  Lemma part_spread : p' = predict_dual 1 H' b' K.
  Proof. rewrite /p' -{1}(spread_in inj h'). exact: (drop_predict inj b' 1 K (@spread_out _ _ _ f _ h')). Qed.
  Lemma spread_sums : sums_to_zero H'.
  Proof.
    move=> j. have [_ B] := solved (between_psd inj P) mpos G S'.
    rewrite (sum_chosen inj (F := fun i => H' i j)) => [|i Li]; last exact: spread_out.
    rewrite -[RHS](B j). apply: eq_bigr => a _. by rewrite -[in RHS](spread_in inj h') [RHS]mxE.
  Qed.

  Lemma fold_curvature j : 0 <= \sum_i (h i j - H' i j) * (p i j - p' i j).
  Proof.
    have [_ B] := solved P npos G S.
    pose d : 'cV[R]_n := col j (h - H'). have Z : \sum_i d i 0 = 0.
      transitivity (\sum_i h i j - \sum_i H' i j); last by rewrite B spread_sums subr0.
      rewrite -sumrB. by apply: eq_bigr => i _; rewrite !mxE.
    have := P d. rewrite /qform -mulmxA -/(dv d (K *m d)) dv_sum => Q.
    have -> : \sum_i (h i j - H' i j) * (p i j - p' i j) = \sum_i d i 0 * (K *m d) i 0; last by [].
    have E : forall i, p i j - p' i j = (K *m d) i 0 + (b 0 j - b' 0 j).
      move=> i. rewrite part_spread /p /predict_dual sqrtr1 !scale1r !rows_all_ones.
      have -> : K *m d = col j (K *m h - K *m H') by rewrite -mulmxBr /d !colE mulmxA.
      move: (K *m h) (K *m H') => u v. rewrite !mxE. by rewrite opprD addrACA.
    transitivity (\sum_i d i 0 * (K *m d) i 0 + \sum_i d i 0 * (b 0 j - b' 0 j)); last by rewrite -big_distrl /= Z mul0r addr0.
    rewrite -big_split /=. apply: eq_bigr => i _. rewrite E -mulrDr. congr (_ * _). by rewrite !mxE.
  Qed.

  (** The residuals with and without the points left out. *)
  Theorem fold_master j :
    \sum_a (p (f a) j - p' (f a) j) ^+ 2 + \sum_(i | i \notin codom f) (Y i j - p i j) ^+ 2 <=
    \sum_(i | i \notin codom f) (Y i j - p i j) * (Y i j - p' i j).
  Proof.
    have C : 0 <= g * \sum_i (h i j - H' i j) * (p i j - p' i j) by apply: mulr_ge0; [exact: ltW | exact: fold_curvature].
    rewrite big_distrr /= (bigID (fun i => i \in codom f)) /= in C.
    have E1 : \sum_(i | i \in codom f) g * ((h i j - H' i j) * (p i j - p' i j)) = - \sum_a (p (f a) j - p' (f a) j) ^+ 2.
      transitivity (\sum_a g * ((h (f a) j - H' (f a) j) * (p (f a) j - p' (f a) j))).
        rewrite -(big_map f xpredT (fun i => g * ((h i j - H' i j) * (p i j - p' i j)))) /=.
        rewrite [RHS]big_uniq /=; last by rewrite map_inj_uniq ?index_enum_uniq.
        apply: eq_bigl => i. by rewrite codomE /index_enum -enumT.
      rewrite -sumrN. apply: eq_bigr => a _.
      have -> : H' (f a) j = h' a j by rewrite -[in RHS](spread_in inj h') [RHS]mxE.
      rewrite mulrA [g * (_ - _)]mulrBr -whole_residual -part_residual.
      have -> : Y (f a) j - p (f a) j - (Y (f a) j - p' (f a) j) = - (p (f a) j - p' (f a) j) by rewrite sub4 subrr sub0r.
      by rewrite mulNr -expr2.
    have E2 : \sum_(i | i \notin codom f) g * ((h i j - H' i j) * (p i j - p' i j)) =
      \sum_(i | i \notin codom f) (Y i j - p i j) * (Y i j - p' i j) - \sum_(i | i \notin codom f) (Y i j - p i j) ^+ 2.
      rewrite -sumrB. apply: eq_bigr => i Ni. rewrite spread_out; last exact: out_codom.
      rewrite subr0 mulrA -whole_residual expr2 -mulrBr. congr (_ * _). by rewrite sub4 subrr sub0r opprB.
    rewrite E1 E2 in C. by rewrite -subr_ge0 opprD addrCA.
  Qed.
  Theorem fold_error j :
    \sum_(i | i \notin codom f) (Y i j - p i j) ^+ 2 <= \sum_(i | i \notin codom f) (Y i j - p' i j) ^+ 2.
  Proof.
    have M := fold_master j. set A := \sum_(i | _) (Y i j - p i j) ^+ 2. set B := \sum_(i | _) (Y i j - p' i j) ^+ 2.
    have C : A <= \sum_(i | i \notin codom f) (Y i j - p i j) * (Y i j - p' i j).
      apply: le_trans M. rewrite ler_addr. apply: sumr_ge0 => a _. exact: sqr_ge0.
    have T : \sum_(i | i \notin codom f) ((Y i j - p i j) * (Y i j - p' i j) + (Y i j - p i j) * (Y i j - p' i j)) <= A + B.
      rewrite -big_split /=. apply: ler_sum => i _. rewrite -subr_ge0. move: (Y i j - p i j) (Y i j - p' i j) => u v.
      have -> : u ^+ 2 + v ^+ 2 - (u * v + u * v) = (u - v) ^+ 2; last exact: sqr_ge0.
      by rewrite sqrrB mulr2n addrAC.
    rewrite big_split /= in T. have := le_trans (ler_add C C) T. by rewrite ler_add2l.
  Qed.
  Theorem fold_others j :
    \sum_a (p (f a) j - p' (f a) j) ^+ 2 <= 4%:R^-1 * \sum_(i | i \notin codom f) (Y i j - p' i j) ^+ 2.
  Proof.
    have M := fold_master j. rewrite -ler_subr_addr -sumrB in M. apply: (le_trans M).
    rewrite big_distrr /=. apply: ler_sum => i _. exact: between_two.
  Qed.
End Fold.

Section One.
  Variables (R : rcfType) (m : nat) (i : 'I_m.+1) (K : 'M[R]_m.+1) (g : R).
  Hypothesis P : psd K.
  Hypothesis mpos : (0 < m)%N.
  Hypothesis G : 0 < g.

  Lemma lift_out : left_out (lift i) i.
  Proof. move=> a. by rewrite eq_sym neq_lift. Qed.
  Lemma only_lift r : left_out (lift i) r -> r = i.
  Proof. move=> L. case: (unliftP i r) => [a E|//]. by move: (L a); rewrite -E eqxx. Qed.

  (** The share of the error that remains. *)
  Definition unit_target : 'cV[R]_m.+1 := delta_mx i 0.
  Lemma share_bounds u v : solve_dual K g unit_target = Some (u, v) -> 0 < g * u i 0 <= 1 - m.+1%:R^-1.
  Proof.
    move=> S. have Er : unit_target i 0 - predict_dual 1 u v K i 0 = g * u i 0.
      by rewrite (sub_entry i 0 (residual_one P G (ltn0Sn m) S)) mxE.
    have U : unit_target i 0 = 1 by rewrite mxE !eqxx.
    have S0 : solve_dual K g (0 : 'cV[R]_m.+1) = Some (0, 0).
      apply: (solve_dual_unique P G (ltn0Sn m)). split; last by move=> j; rewrite big1 // => x _; rewrite mxE.
      rewrite mulmx0 add0r scaler0 sub0r. apply/matrixP => x y. by rewrite !mxE oppr0.
    have /andP [L1 L2] : (m.+1%:R^-1 * (unit_target i 0 - (0 : 'cV[R]_m.+1) i 0) ^+ 2 <=
        (predict_dual 1 u v K i 0 - predict_dual 1 (0 : 'cV[R]_m.+1) 0 K i 0) * (unit_target i 0 - (0 : 'cV[R]_m.+1) i 0) <= (unit_target i 0 - (0 : 'cV[R]_m.+1) i 0) ^+ 2).
      apply: (leverage P (ltn0Sn m) G S S0) => r Nr. by rewrite !mxE (negbTE Nr).
    have Z : predict_dual 1 (0 : 'cV[R]_m.+1) 0 K i 0 = 0 by rewrite /predict_dual !mulmx0 scaler0 addr0 mxE.
    rewrite Z U [(0 : 'M__) i 0]mxE !subr0 expr1n !mulr1 in L1 L2. rewrite U in Er.
    apply/andP. split; last by rewrite -Er ler_add2l ler_opp2.
    rewrite lt_def -{2}Er subr_ge0 L2 andbT. apply/eqP => C.
    have u0 : u i 0 = 0 by move/eqP: C; rewrite mulf_eq0 (gt_eqF G) /= => /eqP.
    have Zo : forall r, left_out (lift i) r -> forall j, u r j = 0 by move=> r /only_lift -> j; rewrite ord1.
    have D := drop (@lift_inj _ i) P G (ltn0Sn m) mpos S Zo.
    have T : rows_of (lift i) unit_target = 0 by apply/matrixP => a j; rewrite !mxE eq_sym (negbTE (neq_lift i a)).
    have D0 : solve_dual (between (lift i) K) g (0 : 'cV[R]_m) = Some (0, 0).
      apply: (solve_dual_unique (between_psd (@lift_inj _ i) P) G mpos). split; last by move=> j; rewrite big1 // => x _; rewrite mxE.
      rewrite mulmx0 add0r scaler0 sub0r. apply/matrixP => x y. by rewrite !mxE oppr0.
    rewrite T D0 in D. case: D => Eu Ev.
    have := drop_predict (@lift_inj _ i) v 1 K Zo. rewrite -Eu -Ev => Ep.
    move: Er. rewrite -Ev -Ep C /predict_dual !mulmx0 scaler0 addr0 mxE subr0 => /eqP. by rewrite oner_eq0.
  Qed.

  Theorem left_one q (Y h : 'M[R]_(m.+1, q)) b (h' : 'M[R]_(m, q)) b' u v : solve_dual K g unit_target = Some (u, v) ->
    solve_dual K g Y = Some (h, b) -> solve_dual (between (lift i) K) g (rows_of (lift i) Y) = Some (h', b') ->
    forall j, Y i j - predict_dual 1 h b K i j = g * u i 0 * (Y i j - predict_dual 1 h' b' (columns_of (lift i) K) i j).
  Proof.
    move=> Su S S' j. set pi := predict_dual 1 h' b' (columns_of (lift i) K) i j.
    rewrite (whole_residual P (ltn0Sn m) G S) -mulrA. congr (_ * _).
    pose t := Y i j - pi. pose Y2 : 'cV[R]_m.+1 := col j Y - t *: unit_target.
    have R2 : rows_of (lift i) Y2 = col j (rows_of (lift i) Y).
      apply/matrixP => a x. rewrite !mxE eq_sym (negbTE (neq_lift i a)) /=. by rewrite mulr0 subr0.
    have B : psd (between (lift i) K) := between_psd (@lift_inj _ i) P.
    have S2' : solve_dual (between (lift i) K) g (rows_of (lift i) Y2) = Some (col j h', col j b').
      rewrite R2. apply: (solve_dual_unique B G mpos). apply: kkt_col. exact: (solved B mpos G S').
    have X : forall r, left_out (lift i) r -> forall x, predict_dual 1 (col j h') (col j b') (columns_of (lift i) K) r x = Y2 r x.
      move=> r /only_lift -> x. rewrite ord1.
      have -> : predict_dual 1 (col j h') (col j b') (columns_of (lift i) K) i 0 = pi.
        rewrite /pi /predict_dual sqrtr1 !scale1r !rows_all_ones.
        have -> : columns_of (lift i) K *m col j h' = col j (columns_of (lift i) K *m h') by rewrite !colE mulmxA.
        move: (columns_of _ _ *m h') => w. by rewrite !mxE.
      rewrite /Y2 [RHS]mxE [col _ _ _ _]mxE [X in _ = _ + X]mxE entZ [unit_target _ _]mxE !eqxx mulr1 /t.
      by rewrite opprB addrCA subrr addr0.
    have S2 := add_explained (@lift_inj _ i) P G (ltn0Sn m) mpos S2' X.
    have S3 := solve_linear t Su S2. rewrite /Y2 addrC subrK in S3.
    have Sj : solve_dual K g (col j Y) = Some (col j h, col j b).
      apply: (solve_dual_unique P G (ltn0Sn m)). apply: kkt_col. exact: (solved P (ltn0Sn m) G S).
    rewrite Sj in S3. case: S3 => Eh _. have := congr1 (fun A : 'cV[R]_m.+1 => A i 0) Eh. rewrite /= [col _ _ _ _]mxE => ->.
    rewrite [LHS]mxE (spread_out _ lift_out) addr0 [LHS]mxE. by rewrite mulrC.
  Qed.
End One.
