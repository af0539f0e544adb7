(** Least-squares support vector machines with nearby kernels: proofs. *)
From mathcomp Require Import all_ssreflect all_algebra.
From Verif Require Import NystromM MatrixSpec NystromMProofs KpcaM KpcaSpec LssvmM LssvmSpec LssvmMProofs LssvmLossProofs LssvmMonoProofs LimitSpec LimitProofs PerturbSpec.
Set Implicit Arguments. Unset Strict Implicit. Unset Printing Implicit Defensive.
Import GRing.Theory Num.Theory Order.POrderTheory Order.TotalTheory.
Local Open Scope ring_scope.

Lemma sub_sub (V : zmodType) (D a a' c r r' : V) : a - a' + (D - (a + r) - (D - (c + r'))) = c - a' - (r - r').
Proof.
  have -> : D - (a + r) - (D - (c + r')) = c + r' - (a + r) by rewrite opprB addrC addrA subrK.
  have -> : c + r' - (a + r) = (c - a) + (r' - r) by rewrite opprD addrACA.
  have -> : a - a' + (c - a + (r' - r)) = (c - a + (a - a')) + (r' - r) by rewrite addrC addrAC.
  by rewrite [c - a + (a - a')]addrA subrK opprB.
Qed.

Section One.
  Variables (R : rcfType) (n : nat) (K K' : 'M[R]_n) (g : R) (D h h' : 'cV[R]_n) (b b' : 'rV[R]_1).
  Hypothesis P : psd K.
  Hypothesis G : 0 < g.
  Hypothesis H : kkt K g D h b.
  Hypothesis H' : kkt K' g D h' b'.
  Let d := h - h'.
  Lemma sums_d : sums_to_zero d.
  Proof.
    move=> k. rewrite /d. transitivity (\sum_i h i k - \sum_i h' i k); last by rewrite (proj2 H) (proj2 H') subr0.
    rewrite -sumrB. by apply: eq_bigr => i _; rewrite !mxE.
  Qed.
  Lemma change_eq : K *m d + g *: d = (K' - K) *m h' - (rows_all n b - rows_all n b').
  Proof.
    have E : g *: h = D - (K *m h + rows_all n b) by case: H.
    have E' : g *: h' = D - (K' *m h' + rows_all n b') by case: H'.
    rewrite /d scalerBr E E' mulmxBr mulmxBl.
    exact: sub_sub.
  Qed.
  Lemma change_small : g ^+ 2 * dv d d <= dv ((K' - K) *m h') ((K' - K) *m h').
  Proof.
    set e := (K' - K) *m h'. have Z := sums_d.
    have L : g * dv d d <= dv d e.
      have -> : dv d e = dv d (K *m d) + g * dv d d.
        rewrite -dvZr -dvDr change_eq -/e dvDr dvNr dvDr dvNr !dv_rows //. by rewrite subr0 subr0.
      rewrite ler_addr /dv mulmxA. exact: P.
    have T := dv_twice (g *: d) e. rewrite dvZl dvZl dvZr in T. rewrite -(ler_add2l (g ^+ 2 * dv d d)).
    have M : g ^+ 2 * dv d d <= g * dv d e by rewrite expr2 -mulrA ler_pmul2l.
    have E2 : g * (g * dv d d) = g ^+ 2 * dv d d by rewrite mulrA expr2.
    rewrite E2 in T. apply: le_trans T. by apply: ler_add.
  Qed.
End One.

Section Nearby.
  Variables (R : rcfType) (n q : nat) (K K' : 'M[R]_n) (g beta : R) (Y h h' : 'M[R]_(n, q)) (b b' : 'rV[R]_q).
  Hypothesis P : psd K.
  Hypothesis P' : psd K'.
  Hypothesis npos : (0 < n)%N.
  Hypothesis G : 0 < g.
  Hypothesis S : solve_dual K g Y = Some (h, b).
  Hypothesis S' : solve_dual K' g Y = Some (h', b').
  Hypothesis W : within beta K K'.
  Lemma psd_least (L : 'M[R]_n) : psd L -> at_least 0 L.
  Proof. by move=> PL u; rewrite mul0r; exact: PL. Qed.
  Lemma within_dv u : dv ((K' - K) *m u) ((K' - K) *m u) <= beta ^+ 2 * dv u u.
  Proof.
    rewrite !dv_sqr. apply: le_trans (W u). apply: ler_sum => i _.
    by rewrite -[K' - K]opprB mulNmx [X in X ^+ 2 <= _]mxE sqrrN.
  Qed.
  Lemma column_dv (A : 'M[R]_(n, q)) j : dv (col j A) (col j A) = \sum_i A i j ^+ 2.
  Proof. by rewrite dv_sqr; apply: eq_bigr => i _; rewrite mxE. Qed.
  Lemma solution_small j c : g ^+ 2 * (\sum_a h' a j ^+ 2) <= \sum_i (Y i j - c) ^+ 2.
  Proof.
    have := small (psd_least P') (lexx 0) G (kkt_col j (solved P' npos G S')) c. by rewrite add0r column_dv column_sum.
  Qed.
  Theorem solution_change j c : \sum_a (h a j - h' a j) ^+ 2 <= beta ^+ 2 * (\sum_i (Y i j - c) ^+ 2) / g ^+ 4.
  Proof.
    have G2 : 0 < g ^+ 2 by rewrite exprn_gt0.
    have C := change_small P G (kkt_col j (solved P npos G S)) (kkt_col j (solved P' npos G S')).
    have E : dv (col j h - col j h') (col j h - col j h') = \sum_a (h a j - h' a j) ^+ 2.
      by rewrite dv_sqr; apply: eq_bigr => i _; rewrite !mxE.
    rewrite E in C. have B := le_trans C (within_dv _). rewrite column_dv in B.
    rewrite (_ : 4 = 2 + 2)%N // exprD ler_pdivl_mulr ?mulr_gt0 // mulrC -mulrA.
    apply: le_trans (ler_wpmul2l (ltW G2) B) _. rewrite mulrCA. apply: ler_wpmul2l; first exact: sqr_ge0. exact: solution_small.
  Qed.

  (** The predictions at a point of kernel values [k] with the first kernel, [k'] with the second,
      relative to the means over the training points. *)
  Definition off (L : 'M[R]_n) p (k : 'M[R]_(p, n)) x a : R := k x a - n%:R^-1 * (\sum_r L r a).
  Lemma two_squares (x y : R) : (x + y) ^+ 2 <= 2%:R * (x ^+ 2 + y ^+ 2).
  Proof.
    rewrite -subr_ge0. have -> : 2%:R * (x ^+ 2 + y ^+ 2) - (x + y) ^+ 2 = (x - y) ^+ 2; last exact: sqr_ge0.
    rewrite sqrrB sqrrD mulr_natl mulr2n. move: (x ^+ 2) (y ^+ 2) (x * y *+ 2) => a c d.
    have -> : a + c + (a + c) - (a + d + c) = a + c - d by rewrite [a + d + c]addrAC opprD addrA addrK.
    by rewrite addrAC.
  Qed.
  Lemma predict_off (L : 'M[R]_n) (z : 'M[R]_(n, q)) e (PL : psd L) (SL : solve_dual L g Y = Some (z, e)) p (k : 'M[R]_(p, n)) x j :
    predict_dual 1 z e k x j = mean Y j + \sum_a off L k x a * z a j.
  Proof.
    rewrite predict_entry (bias_mean (psd_least PL) (lexx 0) npos G SL) addrCA -sumrB. congr (_ + _).
    by apply: eq_bigr => a _; rewrite -mulrBl.
  Qed.
  Lemma sum_schwarz (u v : 'I_n -> R) : (\sum_a u a * v a) ^+ 2 <= (\sum_a u a ^+ 2) * (\sum_a v a ^+ 2).
  Proof.
    have := schwarz (\col_a u a) (\col_a v a). rewrite !dv_sqr dv_sum.
    have -> : \sum_a (\col_a u a) a 0 * (\col_a v a) a 0 = \sum_a u a * v a by apply: eq_bigr => a _; rewrite !mxE.
    have -> : \sum_a (\col_a u a) a 0 ^+ 2 = \sum_a u a ^+ 2 by apply: eq_bigr => a _; rewrite !mxE.
    by have -> : \sum_a (\col_a v a) a 0 ^+ 2 = \sum_a v a ^+ 2 by apply: eq_bigr => a _; rewrite !mxE.
  Qed.
  Theorem prediction_change p (k k' : 'M[R]_(p, n)) x j c :
    (predict_dual 1 h b k x j - predict_dual 1 h' b' k' x j) ^+ 2 <=
    2%:R * ((\sum_a off K k x a ^+ 2) * (beta ^+ 2 * (\sum_i (Y i j - c) ^+ 2) / g ^+ 4) +
            (\sum_a (off K k x a - off K' k' x a) ^+ 2) * ((\sum_i (Y i j - c) ^+ 2) / g ^+ 2)).
  Proof.
    rewrite (predict_off P S) (predict_off P' S') opprD addrACA subrr add0r -sumrB.
    have -> : \sum_a (off K k x a * h a j - off K' k' x a * h' a j) =
              \sum_a off K k x a * (h a j - h' a j) + \sum_a (off K k x a - off K' k' x a) * h' a j.
      rewrite -big_split /=; apply: eq_bigr => a _. move: (off K k x a) (off K' k' x a) => u v. by rewrite mulrBr mulrBl addrA subrK.
    apply: le_trans (two_squares _ _) _. apply: ler_wpmul2l; first exact: ler0n. apply: ler_add.
      apply: le_trans (sum_schwarz _ _) _. apply: ler_wpmul2l; last exact: solution_change. by apply: sumr_ge0 => a _; exact: sqr_ge0.
    apply: le_trans (sum_schwarz _ _) _. apply: ler_wpmul2l; first by apply: sumr_ge0 => a _; exact: sqr_ge0.
    rewrite ler_pdivl_mulr ?exprn_gt0 // mulrC. exact: solution_small.
  Qed.
End Nearby.

Section Sources.
  Variables (R : rcfType) (n : nat) (K K' : 'M[R]_n).
  (** Matrices that are close entry by entry. *)
  Lemma within_entries e : (forall i j, `|K i j - K' i j| <= e) -> within (n%:R * e) K K'.
  Proof.
    move=> H u. have Q i : ((K - K') *m u) i 0 ^+ 2 <= n%:R * e ^+ 2 * (\sum_j u j 0 ^+ 2).
      rewrite [X in X ^+ 2]mxE. apply: le_trans (sum_schwarz _ _) _. apply: ler_wpmul2r; first by apply: sumr_ge0 => a _; exact: sqr_ge0.
      apply: le_trans (_ : _ <= \sum_(j < n) e ^+ 2) _; last by rewrite sumr_const card_ord mulr_natl.
      apply: ler_sum => j _. rewrite !mxE -(real_normK (num_real _)) ler_sqr ?nnegrE ?normr_ge0 //. exact: le_trans (normr_ge0 _) (H i j).
    apply: le_trans (ler_sum _ (fun i _ => Q i)) _. rewrite sumr_const card_ord -[_ *+ n]mulr_natl.
    have -> : (n%:R * e) ^+ 2 = n%:R * (n%:R * e ^+ 2) by rewrite exprMn [n%:R ^+ 2]expr2 mulrA.
    by rewrite !mulrA.
  Qed.
End Sources.

Section Nystroem.
  Variables (R : rcfType) (n : nat) (K : 'M[R]_n) (s : 'rV[R]_n) (V : 'M[R]_n).
  Hypothesis E : eigendecomposition K s V.
  Variables (eps : R) (k : nat) (Hk : (k <= n)%N).
  Hypothesis He : 0 <= eps.
  Notation Phi := (nystrom_sample eps Hk s V).
  Lemma nystrom_difference : K - Phi *m Phi^T = V *m diag_mx (\row_j (if left_out s eps k j then s 0 j else 0)) *m V^T.
  Proof.
    apply/matrixP => a b. rewrite [LHS]mxE [X in _ + X]mxE nystrom_gram // (spectral_entry E) (bigID (left_out s eps k)) /= addrK.
    rewrite [RHS]mxE big_mkcond /=. apply: eq_bigr => j _. rewrite mul_diag_entry mxE [V^T _ _]mxE.
    by case: ifP => _; rewrite ?mulr0 ?mul0r // [V a j * _]mulrC.
  Qed.
  Lemma within_nystrom beta : 0 <= beta -> (forall j, left_out s eps k j -> `|s 0 j| <= beta) -> within beta K (Phi *m Phi^T).
  Proof.
    move=> B0 B u. have OV : V^T *m V = 1%:M by case: E.
    rewrite nystrom_difference -!mulmxA -!dv_sqr.
    have I (v : 'cV[R]_n) : dv (V *m v) (V *m v) = dv v v by rewrite /dv trmx_mul -mulmxA (mulmxA V^T) OV mul1mx.
    have I' (v : 'cV[R]_n) : dv (V^T *m v) (V^T *m v) = dv v v by rewrite /dv trmx_mul trmxK -mulmxA (mulmxA V) (mulmx1C OV) mul1mx.
    rewrite I -(I' u) !dv_sqr mulr_sumr. apply: ler_sum => j _. rewrite mul_diag_mx [X in X ^+ 2 <= _]mxE [X in X * _]mxE exprMn.
    apply: ler_wpmul2r; first exact: sqr_ge0. case: ifP => L; last by rewrite expr0n /= sqr_ge0.
    rewrite -(real_normK (num_real (s 0 j))) ler_sqr ?nnegrE ?normr_ge0 //. exact: B.
  Qed.
End Nystroem.
