(** Proofs about the normalisation of the rows, their re-orthonormalisation and histories. *)
From mathcomp Require Import all_ssreflect all_algebra ssrAC.
From Verif Require Import Stiefel StiefelSpec StiefelProofs.
Set Implicit Arguments. Unset Strict Implicit. Unset Printing Implicit Defensive.
Import GRing.Theory Num.Theory Order.TTheory.
Local Open Scope ring_scope.

Section History.
  Variable R : rcfType.
  Local Notation eps := (eps R).

  (** *** Unit rows *)
  Lemma row_norm_ge0 m n (p : 'M[R]_(m, n)) i : 0 <= row_norm p i.
  Proof. exact: sqrtr_ge0. Qed.
  Lemma row_norm_sq m n (p : 'M[R]_(m, n)) i : row_norm p i ^+ 2 = gram p i i.
  Proof. by rewrite gram_diag sqr_sqrtr // sumr_ge0 // => j _; exact: sqr_ge0. Qed.
  Lemma row_den_gt0 m n (p : 'M[R]_(m, n)) i : 0 < row_norm p i + eps.
  Proof. by rewrite ltr_paddl ?row_norm_ge0 ?eps_gt0. Qed.
  Lemma unit_gram m n (p : 'M[R]_(m, n)) i j :
    gram (unit_rows p) i j = gram p i j / (row_norm p i + eps) / (row_norm p j + eps).
  Proof.
    rewrite /gram !mxE -mulrA -invfM mulr_suml; apply: eq_bigr => k _; rewrite !mxE.
    by rewrite mulrACA invfM.
  Qed.
  Lemma unit_norm m n (p : 'M[R]_(m, n)) i :
    row_norm (unit_rows p) i = row_norm p i / (row_norm p i + eps).
  Proof.
    have P := row_den_gt0 p i.
    apply/eqP; rewrite -(eqr_expn2 (n := 2)) ?row_norm_ge0 //; last by rewrite divr_ge0 ?row_norm_ge0 ?ltW.
    by rewrite row_norm_sq unit_gram -row_norm_sq expr_div_n -mulrA -invfM -expr2.
  Qed.

  (** *** Re-orthonormalisation *)
  Section QR.
    Variables (m n : nat) (x q : 'M[R]_(n, m)) (r : 'M[R]_m).
    Hypothesis F : qr_factors x q r.
    Lemma qr_gram : x^T *m x = r^T *m r.
    Proof. by case: F => -> [Q _]; rewrite trmx_mul -mulmxA [q^T *m _]mulmxA Q mul1mx. Qed.
    (** Orthogonal columns: the triangular factor is diagonal. *)
    Lemma qr_diagonal : (forall i j, i != j -> (x^T *m x) i j = 0) -> (forall i, (x^T *m x) i i != 0) ->
      (forall i j, i != j -> r i j = 0) /\ forall i, r i i ^+ 2 = (x^T *m x) i i.
    Proof.
      move=> O N; case: F => _ [_ T].
      have G (i j : 'I_m) : (x^T *m x) i j = \sum_k r k i * r k j.
        by rewrite qr_gram mxE; apply: eq_bigr => k _; rewrite mxE.
      have U : forall k (i : 'I_m), (i < k)%N -> (forall j : 'I_m, (i < j)%N -> r i j = 0) /\ r i i ^+ 2 = (x^T *m x) i i.
        elim=> [//|k IH] i; rewrite ltnS => Lik.
        have D (j : 'I_m) : (i <= j)%N -> (x^T *m x) i j = r i i * r i j.
          move=> Lij; rewrite G (bigD1 i) //= big1 ?addr0 // => l Nl.
          case: (ltngtP l i) => [Lli|Lli|/val_inj E]; last by rewrite E eqxx in Nl.
            by have [H _] := IH l (leq_trans Lli Lik); rewrite (H i Lli) mul0r.
          by rewrite (T l i Lli) mul0r.
        have S : r i i ^+ 2 = (x^T *m x) i i by rewrite D // expr2.
        split=> // j Lij. have Ne : r i i != 0 by rewrite -sqrf_eq0 S N.
        apply: (mulfI Ne). by rewrite -D ?(ltnW Lij) // mulr0 O // neq_ltn Lij.
      split=> [i j Nij|i]; last by case: (U i.+1 i (ltnSn i)).
      case: (ltngtP i j) => [L|L|/val_inj E]; last by rewrite E eqxx in Nij.
        by have [H _] := U i.+1 i (ltnSn i); exact: H.
      exact: T.
    Qed.
  End QR.
  Section Retract.
    Variables (m n : nat) (qr : 'M[R]_(n, m) -> 'M[R]_(n, m) * 'M[R]_m).
    Hypothesis C : qr_correct qr.
    Lemma gram_trmx (x : 'M[R]_(m, n)) : x^T^T *m x^T = gram x.
    Proof. by rewrite trmxK. Qed.
    Lemma retract_gram (x : 'M[R]_(m, n)) i j :
      gram (qr_retraction qr x) i j = (i == j)%:R * (Num.sg ((qr x^T).2 i i) * Num.sg ((qr x^T).2 j j)).
    Proof.
      rewrite /qr_retraction; have := C x^T; case: (qr x^T) => q r /= [_ [Q _]].
      have E : \sum_k q k i * q k j = (i == j)%:R.
        have := congr1 (fun M : 'M_m => M i j) Q; rewrite /= [in RHS]mxE mxE => <-.
        by apply: eq_bigr => k _; rewrite mxE.
      rewrite -E mulr_suml /gram mxE; apply: eq_bigr => k _.
      by rewrite !mxE mulrACA.
    Qed.
    Lemma sg_sq (a : R) : a != 0 -> Num.sg a * Num.sg a = 1.
    Proof. by move=> H; rewrite -expr2 sqr_sg H. Qed.
    (** Rows that are independent become orthonormal. *)
    Lemma retract_orthonormal (x : 'M[R]_(m, n)) : (forall i, (qr x^T).2 i i != 0) -> orthonormal_rows (qr_retraction qr x).
    Proof.
      move=> H; apply/matrixP => i j; rewrite retract_gram mxE.
      by case: eqP => [->|_]; rewrite ?mul0r // sg_sq ?H ?mul1r.
    Qed.
    Lemma retract_zero (x : 'M[R]_(m, n)) i : (qr x^T).2 i i = 0 -> gram (qr_retraction qr x) i i = 0.
    Proof. by move=> H; rewrite retract_gram H sgr0 mul0r mulr0. Qed.
    Lemma retract_orthogonal (x : 'M[R]_(m, n)) : orthogonal_rows x -> (forall i, gram x i i != 0) ->
      orthonormal_rows (qr_retraction qr x) /\
      forall i j, qr_retraction qr x i j = x i j / row_norm x i.
    Proof.
      move=> O N.
      have O' i j : i != j -> (x^T^T *m x^T) i j = 0 by move=> H; rewrite gram_trmx O.
      have N' i : (x^T^T *m x^T) i i != 0 by rewrite gram_trmx.
      have [D S] := qr_diagonal (C x^T) O' N'.
      have Ne i : (qr x^T).2 i i != 0 by rewrite -sqrf_eq0 S gram_trmx N.
      split; first exact: retract_orthonormal.
      move=> i j. have [E _] := C x^T.
      have Exij : x i j = (qr x^T).1 j i * (qr x^T).2 i i.
        have := congr1 (fun M : 'M_(n, m) => M j i) E; rewrite /= !mxE => ->.
        by rewrite (bigD1 i) //= big1 ?addr0 // => k Nk; rewrite D ?mulr0.
      have Rn : row_norm x i = `|(qr x^T).2 i i|.
        by rewrite -sqrtr_sqr S gram_trmx -row_norm_sq sqrtr_sqr ger0_norm ?row_norm_ge0.
      rewrite /qr_retraction Exij Rn. case: (qr x^T) (Ne i) => q r /= Nr. rewrite !mxE -mulrA; congr (_ * _).
      apply: (mulIf (x := `|r i i|)); first by rewrite normr_eq0.
      by rewrite mulfVK ?normr_eq0 // mulr_sg_norm.
    Qed.
    (** Orthonormal rows are left as they are. *)
    Lemma retract_fixed (x : 'M[R]_(m, n)) : orthonormal_rows x -> qr_retraction qr x = x.
    Proof.
      move=> O; have G i j : gram x i j = (i == j)%:R by rewrite O mxE.
      have O' : orthogonal_rows x by move=> i j N; rewrite G (negbTE N).
      have N' i : gram x i i != 0 by rewrite G eqxx oner_neq0.
      have [_ H] := retract_orthogonal O' N'.
      apply/matrixP => i j; rewrite H.
      have -> : row_norm x i = 1 by rewrite /row_norm -gram_diag G eqxx sqrtr1.
      by rewrite divr1.
    Qed.
  End Retract.

  (** *** Histories *)
  Lemma eps_lt1 : eps < 1.
  Proof.
    rewrite /Stiefel.eps. have : 1 < (10%:R ^+ 8 : R) by rewrite expr_gt1 ?ler0n ?ltr1n.
    move: (10%:R ^+ 8) => z Z. rewrite invf_lt1 //. exact: lt_trans (ltr01) Z.
  Qed.
  Lemma near_norm (r : R) : 0 <= r -> ((1 - eps) ^+ 2 <= r ^+ 2 <= 1) = (1 - eps <= r <= 1).
  Proof.
    move=> H; have E : 0 <= 1 - eps by rewrite subr_ge0 ltW // eps_lt1.
    by rewrite ler_sqr // -[X in _ && (_ <= X)](expr1n R 2) ler_sqr // nnegrE ler01.
  Qed.
  Lemma near_unit (r : R) : 1 - eps <= r <= 1 -> 1 - eps <= r / (r + eps) <= 1.
  Proof.
    move=> /andP [A B]; have E0 := eps_gt0 R; have P : 0 < 1 - eps by rewrite subr_gt0 eps_lt1.
    have Rp : 0 < r by apply: lt_le_trans A.
    have D : 0 < r + eps by rewrite addr_gt0.
    rewrite ler_pdivl_mulr // ler_pdivr_mulr // mul1r ler_addl (ltW E0) andbT.
    rewrite mulrBl mul1r mulrDr opprD addrA.
    rewrite -subr_ge0. 
    have -> : r - (r + eps - eps * r - eps * eps) = eps * (r - (1 - eps)).
      rewrite mulrBr mulrBr mulr1 !opprD !opprK !addrA subrr add0r.
      by rewrite [LHS](ACl (2*1*3)).
    by rewrite mulr_ge0 ?(ltW E0) // subr_ge0.
  Qed.
  Section Path.
    Variables (m n : nat) (qr : 'M[R]_(n, m) -> 'M[R]_(n, m) * 'M[R]_m).
    Hypothesis C : qr_correct qr.
    Lemma unit_near (p : 'M[R]_(m, n)) : nearly_orthonormal p -> nearly_orthonormal (unit_rows p).
    Proof.
      move=> [O N]; split=> [i j H|i]; first by rewrite unit_gram O // mul0r mul0r.
      have := N i; rewrite -!row_norm_sq !near_norm ?row_norm_ge0 // unit_norm. exact: near_unit.
    Qed.
    Lemma near_neq0 (p : 'M[R]_(m, n)) i : nearly_orthonormal p -> gram p i i != 0.
    Proof.
      move=> [_ /(_ i) /andP [A _]]; apply: lt0r_neq0; apply: lt_le_trans A.
      by rewrite exprn_gt0 // subr_gt0 eps_lt1.
    Qed.
    Lemma orthonormal_near (p : 'M[R]_(m, n)) : orthonormal_rows p -> nearly_orthonormal p.
    Proof.
      move=> O; split=> [i j H|i]; rewrite O mxE ?(negbTE H) // eqxx lexx andbT.
      by rewrite -[X in _ <= X](expr1n R 2) ler_sqr ?nnegrE ?ler01 ?subr_ge0 ?(ltW eps_lt1) // ler_subl_addr ler_addl ltW ?eps_gt0.
    Qed.
    Lemma start_near (p : 'M[R]_(m, n)) retract : nearly_orthonormal p -> nearly_orthonormal (start qr retract p).
    Proof.
      move=> H; have U := unit_near H; rewrite /start; case: retract => //.
      apply: orthonormal_near. case: (U) => O _. by have [] := retract_orthogonal C O (fun i => near_neq0 i U).
    Qed.
    Lemma near_gram (p p' : 'M[R]_(m, n)) : gram p = gram p' -> nearly_orthonormal p' -> nearly_orthonormal p.
    Proof. by move=> E [O N]; split=> [i j H|i]; rewrite E; [exact: O | exact: N]. Qed.
    Lemma exact_near (p0 p : 'M[R]_(m, n)) : nearly_orthonormal p0 -> exact_history qr p0 p -> nearly_orthonormal p.
    Proof.
      move=> H; elim=> // {}p retract w t y _ IH S Y.
      apply: (near_gram (p' := start qr retract p)); last exact: start_near.
      by rewrite /gram trmxK (update_gram S Y) trmxK.
    Qed.
  End Path.

  (** *** Momentum *)
  Section Momentum.
    Variables (m n : nat) (qr : 'M[R]_(n, m) -> 'M[R]_(n, m) * 'M[R]_m).
    Lemma sgd_buffer o s rg : fresh s.2 -> fresh (sgd_stiefel o qr rg.1 s rg.2 : 'M[R]_(m, n) * option 'M[R]_(n, m)).2.
    Proof. by case: s => p b. Qed.
    Lemma run_cons o s rg gs : run_sgd qr o s (rg :: gs) = run_sgd qr o (sgd_stiefel o qr rg.1 s rg.2) gs.
    Proof. by rewrite /run_sgd /foldl. Qed.
    Lemma run_buffer o gs s : fresh s.2 -> fresh (run_sgd qr o s gs).2.
    Proof. by elim: gs s => [//|rg gs IH s H]; rewrite run_cons; exact (IH _ (sgd_buffer o rg H)). Qed.
    Lemma sgd_parameter o o' (s s' : 'M[R]_(m, n) * option 'M[R]_(n, m)) rg : same_rate o o' -> fresh s.2 -> fresh s'.2 -> s.1 = s'.1 ->
      (sgd_stiefel o qr rg.1 s rg.2).1 = (sgd_stiefel o' qr rg.1 s' rg.2).1.
    Proof.
      case: s => p b; case: s' => p' b' L Hb Hb' E. rewrite /sgd_stiefel [LHS]/fst [RHS]/fst.
      rewrite /fst in E. rewrite /fresh /snd in Hb Hb'. by rewrite E Hb Hb' !scaler0 L.
    Qed.
    Lemma run_parameter o o' gs s s' : same_rate o o' -> fresh s.2 -> fresh s'.2 -> s.1 = s'.1 ->
      (run_sgd qr o s gs).1 = (run_sgd qr o' s' gs).1.
    Proof.
      move=> L; elim: gs s s' => [//|rg gs IH s s' Hb Hb' E]. rewrite !run_cons.
      exact (IH _ _ (sgd_buffer o rg Hb) (sgd_buffer o' rg Hb') (sgd_parameter rg L Hb Hb' E)).
    Qed.
    Lemma run_last o s gs rg : fresh s.2 ->
      (run_sgd qr o s (rcons gs rg)).1 = (sgd_stiefel o qr rg.1 ((run_sgd qr o s gs).1, None) rg.2).1.
    Proof.
      move=> H; rewrite /run_sgd -cats1 foldl_cat [foldl _ _ [:: rg]]/foldl -/(run_sgd qr o s gs).
      apply: sgd_parameter => //. exact: run_buffer.
    Qed.
  End Momentum.
  (** *** The first moment of the second optimiser *)
  Section Moment.
    Variables (m n : nat) (qr : 'M[R]_(n, m) -> 'M[R]_(n, m) * 'M[R]_m).
    Lemma adam_moment o retract (p : 'M[R]_(m, n)) os g :
      let s := odflt (adam_init m n o) os in
      let x := start qr retract p in
      adam_scale o s g != 0 -> a_power1 s != 1 ->
      exists s', (adam_stiefel o qr retract (p, os) g).2 = Some s' /\
        a_m s' = direction (a_beta1 o *: a_m s + (1 - a_beta1 o) *: g^T) x *m x^T /\
        a_power1 s' = a_power1 s * a_beta1 o /\
        forall g', adam_first o s' g' = a_beta1 o *: a_m s' + (1 - a_beta1 o) *: g'^T.
    Proof.
      move=> s x S P. eexists; split; first by rewrite /adam_stiefel.
      split; last by [].
      rewrite [LHS]/a_m -/s -/x /adam_direction direction_linear -!scalemxAl !scalerA.
      rewrite (mulrAC (adam_scale o s g)) mulfV // mul1r mulfV ?scale1r //.
      by rewrite subr_eq0 eq_sym.
    Qed.
  End Moment.
End History.
