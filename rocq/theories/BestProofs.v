(** No matrix of the same rank is closer to a positive matrix than its Nystrom approximation: proofs. *)
From mathcomp Require Import all_ssreflect all_algebra.
From Verif Require Import NystromM MatrixSpec NystromMProofs KpcaM KpcaSpec KpcaMProofs KpcaOptimal LssvmMProofs LssvmMonoProofs LimitProofs MvProjectProofs PerturbSpec PerturbProofs SubspaceProofs.
Set Implicit Arguments. Unset Strict Implicit. Unset Printing Implicit Defensive.
Import GRing.Theory Num.Theory Order.POrderTheory Order.TotalTheory.
Local Open Scope ring_scope.

(** ** The orthogonal projection on the columns of a matrix *)
Section Projection.
  Variable R : rcfType.
  Lemma frob_column n (x : 'cV[R]_n) : (x^T *m x) 0 0 = frobenius2 x.
  Proof. rewrite frob_tr /mxtrace big_ord1. by []. Qed.
  Lemma gram_unit n r (C : 'M[R]_(n, r)) : row_full C -> C^T *m C \in unitmx.
  Proof.
    move=> F. rewrite -row_free_unit. apply: inj_row_free => v H.
    have Z : C *m v^T = 0.
      apply: frobenius2_eq0. rewrite frob_tr trmx_mul trmxK -mulmxA (mulmxA C^T) mulmxA H mul0mx. exact: mxtrace0.
    have [B HB] := row_fullP F.
    by rewrite -[v]trmxK -[v^T]mul1mx -HB -mulmxA Z mulmx0 trmx0.
  Qed.
  Lemma projection n m (M : 'M[R]_(n, m)) :
    exists P : 'M[R]_n, P^T = P /\ P *m P = P /\ P *m M = M /\ \tr P = (\rank M)%:R.
  Proof.
    have := mulmx_base M. have := gram_unit (col_base_full M).
    move: (\rank M) (col_base M) (row_base M) => r C B U HB.
    have [G HG] : exists G, C^T *m C = G by exists (C^T *m C).
    have GT : G^T = G by rewrite -HG trmx_mul trmxK.
    rewrite HG in U. exists (C *m invmx G *m C^T). split; last split; last split.
    - by rewrite trmx_mul trmxK trmx_mul trmx_inv GT mulmxA.
    - by rewrite -!mulmxA (mulmxA C^T) HG (mulmxA G) (mulmxV U) mul1mx.
    - by rewrite -HB -!mulmxA (mulmxA C^T) HG (mulmxA _ G) (mulVmx U) mul1mx.
    - by rewrite mxtrace_mulC mulmxA HG (mulmxV U) mxtrace1.
  Qed.
End Projection.

(** ** Weights between 0 and 1 that add up to no more than the number of elements chosen *)
Lemma weights_at_most (R : rcfType) n (a w : 'I_n -> R) (P : pred 'I_n) :
  (forall j, 0 <= w j) -> (forall j, w j <= 1) -> (forall j, 0 <= a j) ->
  (forall i j, P i -> ~~ P j -> a j <= a i) -> \sum_j w j <= (#|P|)%:R ->
  \sum_(j | ~~ P j) a j <= \sum_j a j * (1 - w j).
Proof.
  move=> w0 w1 a0 sep S.
  case: (pickP P) => [j0 P0|N]; last first.
    have C : #|P| = 0%N by apply: eq_card0.
    have W : \sum_j w j = 0.
      rewrite C in S. apply: le_anti. rewrite S /=. by apply: sumr_ge0 => j _.
    have Z j : w j = 0 by apply: (psumr_eq0P (fun j _ => w0 j) W).
    rewrite (eq_bigl predT) => [|j]; last by rewrite N.
    apply: ler_sum => j _. by rewrite Z subr0 mulr1.
  have [i Pi Mi] := arg_minP a P0. set t := a i.
  rewrite [X in _ <= X](bigID P) /=.
  have H1 : t * (\sum_(j | P j) (1 - w j)) <= \sum_(j | P j) a j * (1 - w j).
    rewrite mulr_sumr. apply: ler_sum => j Pj. apply: ler_wpmul2r; [by rewrite subr_ge0|exact: Mi].
  have H2 : \sum_(j | ~~ P j) a j - t * (\sum_(j | ~~ P j) w j) <= \sum_(j | ~~ P j) a j * (1 - w j).
    rewrite mulr_sumr -sumrB. apply: ler_sum => j Pj. rewrite mulrBr mulr1 ler_add2l ler_opp2.
    apply: ler_wpmul2r => //. exact: sep.
  have H3 : t * (\sum_(j | ~~ P j) w j) <= t * (\sum_(j | P j) (1 - w j)).
    apply: ler_wpmul2l; first exact: a0. rewrite sumrB sumr_const ler_subr_addr.
    move: S. by rewrite (bigID P) /= addrC.
  apply: le_trans (_ : \sum_(j | ~~ P j) a j <= t * (\sum_(j | P j) (1 - w j)) + (\sum_(j | ~~ P j) a j - t * (\sum_(j | ~~ P j) w j))) _.
    rewrite addrCA ler_addl subr_ge0. exact: H3.
  exact: ler_add.
Qed.

(** ** The closest matrices *)
Section Best.
  Variables (R : rcfType) (n : nat) (K : 'M[R]_n) (s : 'rV[R]_n) (V : 'M[R]_n).
  Hypothesis E : eigendecomposition K s V.
  Hypothesis s0 : forall j, 0 <= s 0 j.
  Variable S : pred 'I_n.
  Hypothesis sep : forall i j, S i -> ~~ S j -> s 0 j <= s 0 i.

  Let OV : V^T *m V = 1%:M. Proof. by case: E. Qed.
  Lemma spectral : K = V *m diag_mx s *m V^T.
  Proof. case: E => _ [<- _]. by rewrite -mulmxA (mulmx1C OV) mulmx1. Qed.
  Lemma spectral_sym : K^T = K.
  Proof. by rewrite spectral !trmx_mul trmxK tr_diag_mx mulmxA. Qed.

  Lemma frob_split (P : 'M[R]_n) (A : 'M[R]_n) : P^T = P -> P *m P = P ->
    frobenius2 ((1%:M - P) *m A) <= frobenius2 A.
  Proof.
    move=> PT PP. have Z : ((1%:M - P) *m A)^T *m (P *m A) = 0.
      by rewrite trmx_mul linearB /= trmx1 PT -mulmxA (mulmxA _ P A) mulmxBl mul1mx PP subrr mul0mx mulmx0.
    have D : A = (1%:M - P) *m A + P *m A by rewrite -mulmxDl subrK mul1mx.
    have Q : frobenius2 A = frobenius2 ((1%:M - P) *m A) + frobenius2 (P *m A).
      rewrite -[LHS]frobT {1}D linearD /= frobenius2_sum ?trmxK ?frobT //.
    by rewrite Q ler_addl frob_ge0.
  Qed.

  Lemma weight (A : 'M[R]_n) j : A^T = A -> A *m A = A -> \sum_i (A *m V) i j ^+ 2 = (V^T *m A *m V) j j.
  Proof.
    move=> AT AA. have -> : V^T *m A *m V = (A *m V)^T *m (A *m V).
      by rewrite trmx_mul AT -!mulmxA (mulmxA A) AA.
    rewrite [RHS]mxE. apply: eq_bigr => i _. by rewrite [(_^T) _ _]mxE expr2.
  Qed.
  Lemma rest_weight (P : 'M[R]_n) j : P^T = P -> P *m P = P ->
    \sum_i ((1%:M - P) *m V) i j ^+ 2 = 1 - \sum_i (P *m V) i j ^+ 2.
  Proof.
    move=> PT PP. have QT : (1%:M - P)^T = 1%:M - P by rewrite linearB /= trmx1 PT.
    have QQ : (1%:M - P) *m (1%:M - P) = 1%:M - P by rewrite mulmxBl mul1mx mulmxBr mulmx1 PP subrr subr0.
    rewrite !weight // mulmxBr mulmx1 mulmxBl OV !mxE eqxx. by [].
  Qed.

  Lemma residual (P : 'M[R]_n) : P^T = P -> P *m P = P ->
    frobenius2 ((1%:M - P) *m K) = \sum_j s 0 j ^+ 2 * (1 - \sum_i (P *m V) i j ^+ 2).
  Proof.
    move=> PT PP.
    have -> : frobenius2 ((1%:M - P) *m K) = frobenius2 ((1%:M - P) *m V *m diag_mx s).
      rewrite spectral -[LHS](@frob_right _ _ _ _ V) ?(mulmx1C OV) //.
      by rewrite -!mulmxA OV mulmx1.
    rewrite /frobenius2 exchange_big /=. apply: eq_bigr => j _.
    rewrite -rest_weight // mulr_sumr. apply: eq_bigr => i _. by rewrite mul_mx_diag [X in X ^+ 2]mxE exprMn mulrC.
  Qed.

  Theorem closest (M : 'M[R]_n) : (\rank M <= #|S|)%N ->
    \sum_(j | ~~ S j) s 0 j ^+ 2 <= frobenius2 (K - M).
  Proof.
    move=> HM. have [P [PT [PP [PM TP]]]] := projection M.
    apply: le_trans (frob_split (K - M) PT PP).
    have -> : (1%:M - P) *m (K - M) = (1%:M - P) *m K.
      by rewrite mulmxBr [X in _ - X]mulmxBl mul1mx PM subrr subr0.
    rewrite residual //. set w := fun j => \sum_i (P *m V) i j ^+ 2.
    have w0 j : 0 <= w j by apply: sumr_ge0 => i _; exact: sqr_ge0.
    have w1 j : w j <= 1.
      rewrite -subr_ge0 /w -rest_weight //. apply: sumr_ge0 => i _; exact: sqr_ge0.
    apply: (@weights_at_most R n (fun j => s 0 j ^+ 2) w S) => //.
    - by move=> j; exact: sqr_ge0.
    - move=> i j Si Sj. by rewrite ler_sqr ?nnegrE // sep.
    - have -> : \sum_j w j = \tr P.
        rewrite /w exchange_big /= -/(frobenius2 (P *m V)) (@frob_right _ _ _ _ V) ?(mulmx1C OV) //.
        by rewrite frob_tr PT PP.
      by rewrite TP ler_nat.
  Qed.

  Lemma column_frob p (x : 'cV[R]_p) : \sum_i x i 0 ^+ 2 = frobenius2 x.
  Proof. rewrite /frobenius2. apply: eq_bigr => i _. by rewrite big_ord1. Qed.

  Theorem closest_operator (M : 'M[R]_n) (beta : R) : (\rank M <= #|S|)%N -> 0 <= beta -> within beta K M ->
    forall j, ~~ S j -> s 0 j <= beta.
  Proof.
    move=> HM B0 W j Sj. pose T : {set 'I_n} := j |: [set i | S i].
    have CT : #|T| = #|S|.+1.
      rewrite cardsU1 inE Sj add1n. congr _.+1. by rewrite cardsE.
    pose VT : 'M[R]_(n, #|T|) := \matrix_(a, i) V a (enum_val i).
    pose sT : 'rV[R]_#|T| := \row_i s 0 (enum_val i).
    have OT : VT^T *m VT = 1%:M.
      apply/matrixP => a b. have := congr1 (fun A : 'M[R]_n => A (enum_val a) (enum_val b)) OV.
      rewrite !mxE (inj_eq enum_val_inj) => <-. apply: eq_bigr => i _. by rewrite !mxE.
    have ET : K *m VT = VT *m diag_mx sT.
      case: E => _ [EV _]. apply/matrixP => a b.
      have := congr1 (fun A : 'M[R]_n => A a (enum_val b)) EV. rewrite mul_mx_diag [RHS]mxE => H.
      rewrite mul_mx_diag [RHS]mxE [VT _ _]mxE [sT _ _]mxE -H !mxE. apply: eq_bigr => i _. by rewrite mxE.
    have [c cK c0] : exists2 c : 'rV[R]_#|T|, c *m (M *m VT)^T = 0 & c != 0.
      have N : kermx (M *m VT)^T != 0.
        rewrite -mxrank_eq0 mxrank_ker -lt0n subn_gt0 mxrank_tr.
        apply: leq_ltn_trans (mxrankM_maxl _ _) _. apply: leq_ltn_trans HM _. by rewrite CT.
      have [c Hc c0] := rowV0Pn N. exists c => //. exact/sub_kermxP.
    have Mu : M *m (VT *m c^T) = 0.
      by rewrite mulmxA -[LHS]trmxK trmx_mul trmxK cK trmx0.
    have := W (VT *m c^T). rewrite mulmxBl Mu subr0 mulmxA ET -!mulmxA !column_frob !(frob_left _ OT) => H.
    have c1 : 0 < frobenius2 c^T.
      rewrite lt_def frob_ge0 andbT. apply: contra c0 => /eqP Z. by rewrite -[c]trmxK (frobenius2_eq0 Z) trmx0.
    have L : s 0 j ^+ 2 * frobenius2 c^T <= frobenius2 (diag_mx sT *m c^T).
      rewrite -!column_frob mulr_sumr. apply: ler_sum => i _. rewrite mul_diag_mx [X in _ <= X ^+ 2]mxE exprMn.
      apply: ler_wpmul2r; first exact: sqr_ge0. rewrite ler_sqr ?nnegrE // mxE //.
      have := enum_valP i. rewrite !inE => /orP [/eqP -> //|Si]. exact: sep.
    have := le_trans L H. by rewrite ler_pmul2r // ler_sqr ?nnegrE.
  Qed.
End Best.

(** ** Nystrom features *)
Section Nystrom.
  Variables (R : rcfType) (n : nat) (K : 'M[R]_n) (s : 'rV[R]_n) (V : 'M[R]_n).
  Hypothesis E : eigendecomposition K s V.
  Hypothesis PK : psd K.
  Variables (eps : R) (k : nat) (Hk : (k <= n)%N).
  Hypothesis He : 0 <= eps.
  Notation Phi := (nystrom_sample eps Hk s V).
  Notation dim := (nystrom_dim eps (eigs_values Hk s)).
  Let s0 : forall j, 0 <= s 0 j := psd_spectrum E PK.

  Lemma nystrom_error : frobenius2 (K - Phi *m Phi^T) = \sum_(j | left_out s eps k j) s 0 j ^+ 2.
  Proof.
    have OV : V^T *m V = 1%:M by case: E.
    rewrite (nystrom_difference E Hk He) (@frob_right _ _ _ _ V^T) ?trmxK //.
    rewrite frob_left // /frobenius2 [RHS]big_mkcond /=. apply: eq_bigr => i _.
    rewrite (bigD1 i) //= big1 => [|j ji]; last by rewrite !mxE eq_sym (negbTE ji) mulr0n expr0n.
    rewrite !mxE eqxx mulr1n addr0. by case: ifP => //; rewrite expr0n.
  Qed.

  Lemma kept_separated i j : ~~ left_out s eps k i -> ~~ ~~ left_out s eps k j -> s 0 j <= s 0 i.
  Proof.
    rewrite negbK /left_out negb_or -leqNgt -leNgt => /andP [Hi Vi] /orP [Hj|Hj].
      case: E => _ [_ A]. apply: A. apply: ltnW. exact: leq_trans Hj Hi.
    exact: le_trans (ltW Hj) Vi.
  Qed.

  Lemma nystrom_best (M : 'M[R]_n) : (\rank M <= dim)%N -> frobenius2 (K - Phi *m Phi^T) <= frobenius2 (K - M).
  Proof.
    move=> HM. rewrite nystrom_error.
    have := @closest R n K s V E s0 (fun j => ~~ left_out s eps k j) kept_separated M.
    rewrite kept_card => /(_ HM). by rewrite (eq_bigl (fun j => left_out s eps k j)) // => j; rewrite negbK.
  Qed.

  Lemma nystrom_best_operator (M : 'M[R]_n) beta : (\rank M <= dim)%N -> 0 <= beta -> within beta K M ->
    within beta K (Phi *m Phi^T).
  Proof.
    move=> HM B0 W. apply: (within_nystrom E) => // j Lj. rewrite ger0_norm //.
    have := @closest_operator R n K s V E s0 (fun j => ~~ left_out s eps k j) kept_separated M beta.
    rewrite kept_card => /(_ HM B0 W j). by rewrite negbK; apply.
  Qed.

  Lemma nystrom_requested (M : 'M[R]_n) : (\rank M <= k)%N ->
    frobenius2 (K - Phi *m Phi^T) <= frobenius2 (K - M) + k%:R * eps ^+ 2.
  Proof.
    move=> HM. rewrite nystrom_error.
    have := @closest R n K s V E s0 (fun j => (n - k <= j)%N) _ M.
    rewrite top_card // => H.
    have {}H : \sum_(j < n | ~~ (n - k <= j)%N) s 0 j ^+ 2 <= frobenius2 (K - M).
      apply: H => // i j Hi Hj. case: E => _ [_ A]. apply: A. rewrite -ltnNge in Hj. apply: ltnW. exact: leq_trans Hj Hi.
    apply: le_trans (ler_add H (lexx _)).
    rewrite (bigID (fun j : 'I_n => (n - k <= j)%N)) /= addrC. apply: ler_add.
      rewrite (eq_bigl (fun j : 'I_n => ~~ (n - k <= j)%N)) // => j. rewrite /left_out -ltnNge andbC. by case: (j < n - k)%N.
    have -> : k%:R * eps ^+ 2 = \sum_(j < n | (n - k <= j)%N) eps ^+ 2.
      by rewrite sumr_const top_card // mulr_natl.
    rewrite big_mkcond [X in _ <= X]big_mkcond /=. apply: ler_sum => j _. rewrite /left_out ltnNge.
    case: (n - k <= j)%N => //=.
    rewrite andbT. case: ifP => Hs; last exact: sqr_ge0. by rewrite ler_sqr ?nnegrE // ltW.
  Qed.
End Nystrom.
