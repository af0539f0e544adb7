(** The parameters found by solving are the best ones: proofs. *)
From mathcomp Require Import all_ssreflect all_algebra.
From Verif Require Import NystromM MatrixSpec NystromMProofs KpcaM KpcaSpec KpcaMProofs.
Set Implicit Arguments. Unset Strict Implicit. Unset Printing Implicit Defensive.
Import GRing.Theory Num.Theory Order.POrderTheory Order.TotalTheory.
Local Open Scope ring_scope.

(** The share of the direction [V j] captured by orthonormal columns. *)
Section Shares.
  Variables (R : rcfType) (n q : nat) (V : 'M[R]_n) (W : 'M[R]_(n, q)).
  Hypothesis OV : V^T *m V = 1%:M.
  Hypothesis OW : orthonormal W.
  Definition share (j : 'I_n) : R := \sum_i (V^T *m W) j i ^+ 2.
  Lemma share_ge0 j : 0 <= share j.
  Proof. by apply: sumr_ge0 => i _; exact: sqr_ge0. Qed.
  Lemma share_entry j : share j = (V^T *m (W *m W^T) *m V) j j.
  Proof.
    have -> : V^T *m (W *m W^T) *m V = (V^T *m W) *m (V^T *m W)^T by rewrite trmx_mul trmxK !mulmxA.
    by rewrite mxE; apply: eq_bigr => i _; rewrite [(_^T) _ _]mxE expr2.
  Qed.
  Lemma share_le1 j : share j <= 1.
  Proof.
    have -> : share j = 1 - \sum_i ((1%:M - W *m W^T) *m V) i j ^+ 2; last first.
      by rewrite ger_addl oppr_le0; apply: sumr_ge0 => i _; exact: sqr_ge0.
    have [PP [PT _]] := projector OW; rewrite share_entry; move: (W *m W^T) PP PT => P PP PT.
    have -> : \sum_i ((1%:M - P) *m V) i j ^+ 2 = (((1%:M - P) *m V)^T *m ((1%:M - P) *m V)) j j.
      by rewrite [RHS]mxE; apply: eq_bigr => i _; rewrite [(_^T) _ _]mxE expr2.
    rewrite trmx_mul linearB /= trmx1 PT.
    have -> : V^T *m (1%:M - P) *m ((1%:M - P) *m V) = V^T *m ((1%:M - P) *m (1%:M - P)) *m V by rewrite !mulmxA.
    have -> : (1%:M - P) *m (1%:M - P) = 1%:M - P by rewrite mulmxBl !mulmxBr !mul1mx mulmx1 PP subrr subr0.
    rewrite mulmxBr mulmx1 mulmxBl OV; move: (V^T *m P *m V) => X.
    by rewrite !mxE eqxx opprB addrC subrK.
  Qed.
  Lemma share_sum : \sum_j share j = q%:R.
  Proof.
    have -> : \sum_j share j = \tr (V^T *m (W *m W^T) *m V) by apply: eq_bigr => j _; exact: share_entry.
    by rewrite mxtrace_mulC !mulmxA (mulmx1C OV) mul1mx mxtrace_mulC OW mxtrace1.
  Qed.
  Lemma captured (s : 'rV[R]_n) (M : 'M[R]_n) : M *m V = V *m diag_mx s ->
    \tr (W *m W^T *m M) = \sum_j s 0 j * share j.
  Proof.
    move=> E; have -> : M = V *m diag_mx s *m V^T by rewrite -E -mulmxA (mulmx1C OV) mulmx1.
    rewrite !mulmxA mxtrace_mulC !mulmxA.
    apply: eq_bigr => j _; rewrite mul_diag_entry mulrC share_entry; congr (_ * _).
    by rewrite !mulmxA.
  Qed.
End Shares.

(** Weights between 0 and 1 adding up to [q] weigh no more than the [q] largest. *)
Section Weights.
  Variables (R : rcfType) (n : nat) (s : 'rV[R]_n) (w : 'I_n -> R) (P : pred 'I_n).
  Hypothesis w0 : forall j, 0 <= w j.
  Hypothesis w1 : forall j, w j <= 1.
  Lemma weights_threshold t : (forall j, P j -> t <= s 0 j) -> (forall j, ~~ P j -> s 0 j <= t) ->
    \sum_j w j = (#|P|)%:R -> \sum_j s 0 j * w j <= \sum_(j | P j) s 0 j.
  Proof.
    move=> T1 T2 S.
    have H : \sum_j (s 0 j - t) * w j <= \sum_(j | P j) (s 0 j - t).
      rewrite (bigID P) /= -[X in _ <= X]addr0; apply: ler_add.
        apply: ler_sum => j Pj; rewrite -[X in _ <= X]mulr1; apply: ler_wpmul2l => //.
        by rewrite subr_ge0 T1.
      rewrite -oppr_ge0 -sumrN; apply: sumr_ge0 => j Pj; rewrite -mulNr mulr_ge0 //.
      by rewrite opprB subr_ge0 T2.
    move: H; have -> : \sum_j (s 0 j - t) * w j = \sum_j s 0 j * w j - t * \sum_j w j.
      by rewrite mulr_sumr -sumrB; apply: eq_bigr => j _; rewrite mulrBl.
    by rewrite S sumrB sumr_const -[t *+ _]mulr_natr ler_add2r.
  Qed.
End Weights.

Section Optimal.
  Variables (R : rcfType) (n : nat) (M : 'M[R]_n) (s : 'rV[R]_n) (V : 'M[R]_n).
  Hypothesis E : eigendecomposition M s V.
  Variables (eps : R) (k : nat) (Hk : (k <= n)%N).
  Notation dim := (nystrom_dim eps (eigs_values Hk s)).
  Let P : pred 'I_n := fun j => ~~ left_out s eps k j.

  Lemma kept_card : #|P| = dim.
  Proof.
    have H := nystrom_reindex s eps Hk (fun _ => 1 : R).
    apply/eqP; rewrite -(eqr_nat R) -sum1_card natr_sum -H sumr_const card_ord.
    by [].
  Qed.
  Lemma kept_threshold j0 : P j0 -> exists t, (forall j, P j -> t <= s 0 j) /\ (forall j, ~~ P j -> s 0 j <= t).
  Proof.
    move=> P0; have [j Pj Mj] := arg_minP (fun j => s 0 j) P0; exists (s 0 j); split => // i.
    rewrite /P negbK /left_out => /orP [Hi|Hi].
      case: E => _ [_ A]; apply: A; apply: ltnW; apply: leq_trans Hi _.
      by move: Pj; rewrite /P /left_out negb_or -leqNgt => /andP [].
    apply: (le_trans (ltW Hi)); move: Pj; rewrite /P /left_out negb_or => /andP [_].
    by rewrite -leNgt.
  Qed.
  Theorem best_captured (W : 'M[R]_(n, dim)) : orthonormal W ->
    \tr (W *m W^T *m M) <= \sum_(j | ~~ left_out s eps k j) s 0 j.
  Proof.
    case: E => OV [EV _] OW; rewrite (captured W OV EV).
    have S : \sum_j share V W j = (#|P|)%:R by rewrite kept_card; exact: share_sum.
    case: (pickP P) => [j0 P0|N].
      have [t [T1 T2]] := kept_threshold P0.
      exact: (weights_threshold (share_ge0 V W) (share_le1 OV OW) T1 T2 S).
    rewrite [X in _ <= X]big_pred0 //.
    have C : #|P| = 0%N by apply: eq_card0.
    rewrite big1 // => j _; move: S; rewrite C => /(psumr_eq0P (fun j _ => share_ge0 V W j)) ->//.
    by rewrite mulr0.
  Qed.
  Theorem optimal_loss (W : 'M[R]_(n, dim)) : orthonormal W -> loss M (primal_param eps Hk s V) <= loss M W.
  Proof.
    move=> OW; rewrite /loss !trmxK ler_add2l ler_opp2; apply: le_trans (best_captured OW) _.
    rewrite -(vals_sum s eps Hk) -mulmxA mxtrace_mulC -mulmxA (param_eigen E eps Hk) mulmxA (param_orthonormal E eps Hk) mul1mx.
    by rewrite mxtrace_diag.
  Qed.

  (** Against as many components as were asked for, pruning costs at most the threshold each. *)
  Let T : pred 'I_n := fun j => (n - k <= j)%N.
  Lemma top_card : #|T| = k.
  Proof.
    have <- : #|~: [set j : 'I_n | (j < n - k)%N]| = #|T|.
      by apply: eq_card => j; rewrite !inE unfold_in /T -leqNgt.
    have := cardsC [set j : 'I_n | (j < n - k)%N]; rewrite card_ord.
    have -> : #|[set j : 'I_n | (j < n - k)%N]| = (n - k)%N.
      have -> : [set j : 'I_n | (j < n - k)%N] = widen_ord (leq_subr k n) @: setT.
        apply/setP => j; rewrite inE; apply/idP/imsetP => [H|[i _ ->]]; last by rewrite /= ltn_ord.
        by exists (Ordinal H) => //; apply: val_inj.
      by rewrite card_imset ?cardsT ?card_ord // => a b /(congr1 val) /= H; apply: val_inj.
    by move=> H; apply/eqP; rewrite -(eqn_add2l (n - k)) H subnK.
  Qed.
  Theorem best_requested (W : 'M[R]_(n, k)) : orthonormal W -> \tr (W *m W^T *m M) <= \sum_(j | T j) s 0 j.
  Proof.
    case: E => OV [EV A] OW; rewrite (captured W OV EV).
    have S : \sum_j share V W j = (#|T|)%:R by rewrite top_card; exact: share_sum.
    case: (pickP T) => [j0 T0|N].
      have H : (n - k < n)%N by apply: leq_ltn_trans T0 (ltn_ord j0).
      apply: (weights_threshold (share_ge0 V W) (share_le1 OV OW) (t := s 0 (Ordinal H)) _ _ S) => j.
        by rewrite /T => Tj; apply: (A (Ordinal H) j Tj).
      by rewrite /T -ltnNge => /ltnW Tj; apply: (A j (Ordinal H) Tj).
    rewrite [X in _ <= X]big_pred0 //.
    have C : #|T| = 0%N by apply: eq_card0.
    rewrite big1 // => j _; move: S; rewrite C => /(psumr_eq0P (fun j _ => share_ge0 V W j)) ->//.
    by rewrite mulr0.
  Qed.
  Theorem requested_loss (W : 'M[R]_(n, k)) : orthonormal W -> 0 <= eps ->
    loss M (primal_param eps Hk s V) <= loss M W + k%:R * eps.
  Proof.
    move=> OW He; rewrite /loss !trmxK -addrA ler_add2l ler_oppl opprD opprK ler_subl_addr.
    have -> : \tr (primal_param eps Hk s V *m (primal_param eps Hk s V)^T *m M) = \sum_(j | ~~ left_out s eps k j) s 0 j.
      rewrite -(vals_sum s eps Hk) -mulmxA mxtrace_mulC -mulmxA (param_eigen E eps Hk) mulmxA (param_orthonormal E eps Hk) mul1mx.
      by rewrite mxtrace_diag.
    apply: le_trans (best_requested OW) _.
    have -> : \sum_(j | ~~ left_out s eps k j) s 0 j = \sum_(j | T j && ~~ (s 0 j < eps)) s 0 j.
      by apply: eq_bigl => j; rewrite /T /left_out negb_or -leqNgt.
    rewrite (bigID (fun j => s 0 j < eps)) /= addrC ler_add2l.
    have -> : k%:R * eps = \sum_(j | T j) eps by rewrite sumr_const top_card mulr_natl.
    rewrite [X in _ <= X](bigID (fun j => s 0 j < eps)) /= -[X in X <= _]addr0; apply: ler_add.
      by apply: ler_sum => j /andP [_ /ltW].
    by apply: sumr_ge0.
  Qed.
End Optimal.
