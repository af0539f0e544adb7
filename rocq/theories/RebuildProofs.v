(** Rebuilding the decomposed matrices: proofs. *)
From Verif Require Import Base.
From mathcomp Require Import all_ssreflect all_algebra.
From Verif Require Import NystromM MatrixSpec NystromMProofs KpcaM KpcaSpec KpcaMProofs KpcaOptimal LssvmMProofs PerturbSpec BestProofs SubspaceProofs Rebuild.
Set Implicit Arguments. Unset Strict Implicit. Unset Printing Implicit Defensive.
Import GRing.Theory Num.Theory Order.POrderTheory Order.TotalTheory.
Local Open Scope ring_scope.

Section Missing.
  Variables (R : rcfType) (n d q : nat).
  Lemma hidden_missing (os : list (kpca_op R n d q)) a : (forall H, ~ List.In (AssignHidden d H) os) ->
    a_hidden a = None -> a_hidden (run a os) = None.
  Proof.
    elim: os a => [|o os IH] a N A //=. rewrite /run /=. apply: IH.
      by move=> H I; apply: (N H); right.
    case: o N => //= H N. by case: (N H); left.
  Qed.
  Lemma hidden_kept (os : list (kpca_op R n d q)) a H : (forall H, ~ List.In (AssignHidden d H) os) ->
    a_hidden a = Some H -> a_hidden (run a os) = Some H.
  Proof.
    elim: os a => [|o os IH] a N A //=. rewrite /run /=. apply: IH.
      by move=> H' I; apply: (N H'); right.
    case: o N => //= H' N. by case: (N H'); left.
  Qed.
  Lemma weight_missing (os : list (kpca_op R n d q)) a : (forall U, ~ List.In (AssignWeight n U) os) ->
    a_weight a = None -> a_weight (run a os) = None.
  Proof.
    elim: os a => [|o os IH] a N A //=. rewrite /run /=. apply: IH.
      by move=> H I; apply: (N H); right.
    case: o N => //= H N. by case: (N H); left.
  Qed.
End Missing.


Section Truncation.
  Variables (R : rcfType) (n : nat) (K : 'M[R]_n) (s : 'rV[R]_n) (V : 'M[R]_n).
  Hypothesis E : eigendecomposition K s V.
  Variables (eps : R) (k : nat) (Hk : (k <= n)%N).
  Hypothesis He : 0 <= eps.
  Notation vals := (prune_values eps (eigs_values Hk s)).
  Notation param := (prune_vectors eps (eigs_values Hk s) (eigs_vectors Hk V)).
  Notation Phi := (nystrom_sample eps Hk s V).

  Lemma truncation : param *m diag_mx vals *m param^T = Phi *m Phi^T.
  Proof. apply/matrixP => a b. by rewrite (truncated_entry s V eps Hk) nystrom_gram. Qed.
  Lemma truncation_rebuilt : K *m (param *m param^T) = Phi *m Phi^T.
  Proof. by rewrite mulmxA (param_eigen E) truncation. Qed.
  Lemma truncation_full : (forall j, ~~ left_out s eps k j) -> Phi *m Phi^T = K.
  Proof.
    move=> N. apply/matrixP => a b. rewrite nystrom_gram // (spectral_entry E). apply: eq_bigl => j. exact: N.
  Qed.
  Lemma truncation_rank : (\rank (Phi *m Phi^T) <= nystrom_dim eps (eigs_values Hk s))%N.
  Proof. apply: leq_trans (mxrankM_maxl _ _) _. exact: rank_leq_col. Qed.
End Truncation.

Section Rows.
  Variable R : rcfType.
  (** The rows projected on orthonormal columns are the nearest of their span. *)
  Lemma nearest_rows m p q (U : 'M[R]_(p, q)) (k : 'M[R]_(m, p)) (C : 'M[R]_(m, q)) : orthonormal U ->
    frobenius2 (k - k *m (U *m U^T)) <= frobenius2 (k - C *m U^T).
  Proof.
    move=> O.
    have -> : k - C *m U^T = (k - k *m (U *m U^T)) + (k *m U - C) *m U^T.
      by rewrite mulmxBl mulmxA addrA subrK.
    move: (k *m U - C) => D.
    have Z : (k - k *m (U *m U^T)) *m (D *m U^T)^T = 0.
      have Y : (k - k *m (U *m U^T)) *m U = 0 by rewrite mulmxBl -!mulmxA O mulmx1 subrr.
      by rewrite trmx_mul trmxK [LHS]mulmxA Y mul0mx.
    have [A HA] : exists A, k - k *m (U *m U^T) = A by exists (k - k *m (U *m U^T)).
    have [B HB] : exists B, D *m U^T = B by exists (D *m U^T).
    rewrite HA HB in Z *.
    have Q : frobenius2 (A + B) = frobenius2 A + frobenius2 B.
      rewrite !frob_tr [(A + B)^T]linearD /= mulmxDl !mulmxDr !mxtraceD.
      have Z1 : \tr (A^T *m B) = 0 by rewrite -mxtrace_tr trmx_mul trmxK mxtrace_mulC Z mxtrace0.
      have Z2 : \tr (B^T *m A) = 0 by rewrite mxtrace_mulC Z mxtrace0.
      by rewrite Z1 Z2 addr0 add0r.
    rewrite Q ler_addl. apply: sumr_ge0 => i _. apply: sumr_ge0 => j _. exact: sqr_ge0.
  Qed.
End Rows.

(** ** The features rebuilt from the components *)
Section Features.
  Variable R : rcfType.
  Lemma residual_rows n d (A : 'M[R]_(n, d)) (P : 'M[R]_d) : P^T = P -> P *m P = P ->
    frobenius2 (A *m (1%:M - P)) = \tr ((1%:M - P) *m (A^T *m A)).
  Proof.
    move=> PT PP. have QT : (1%:M - P)^T = 1%:M - P by rewrite linearB /= trmx1 PT.
    have QQ : (1%:M - P) *m (1%:M - P) = 1%:M - P by rewrite mulmxBl mul1mx mulmxBr mulmx1 PP subrr subr0.
    move: (1%:M - P) QT QQ => Q QT QQ.
    by rewrite frob_tr trmx_mul QT mulmxA mxtrace_mulC !mulmxA QQ.
  Qed.
  Lemma fewer_rows n d (A : 'M[R]_(n, d)) (P : 'M[R]_d) : P^T = P -> P *m P = P ->
    frobenius2 (A *m (1%:M - P)) <= frobenius2 A.
  Proof.
    move=> PT PP. rewrite residual_rows // mulmxBl mul1mx linearB /= -frob_tr ler_subl_addr ler_addl.
    have -> : \tr (P *m (A^T *m A)) = \tr ((A *m P)^T *m (A *m P)).
      by rewrite trmx_mul PT [in RHS]mulmxA [RHS]mxtrace_mulC !mulmxA PP.
    rewrite -frob_tr. apply: sumr_ge0 => i _. apply: sumr_ge0 => j _. exact: sqr_ge0.
  Qed.

  Lemma corner d (V B : 'M[R]_d) j : B^T = B -> B *m B = B -> (V^T *m B *m V) j j = frobenius2 (B *m col j V).
  Proof.
    move=> BT BB. have -> : V^T *m B *m V = (B *m V)^T *m (B *m V) by rewrite trmx_mul BT -!mulmxA (mulmxA B) BB.
    have -> : B *m col j V = col j (B *m V) by rewrite !colE mulmxA.
    rewrite -frob_column [LHS]mxE [RHS]mxE. apply: eq_bigr => i _.
    by rewrite [(B *m V)^T _ _]mxE [(col _ _)^T _ _]mxE ![col _ _ _ _]mxE.
  Qed.

  Variables (n d : nat) (Phi : 'M[R]_(n, d)) (s : 'rV[R]_d) (V : 'M[R]_d).
  Hypothesis E : eigendecomposition (second_moment Phi) s V.
  Hypothesis n0 : (0 < n)%N.
  Variables (eps : R) (k : nat) (Hk : (k <= d)%N).
  Hypothesis He : 0 <= eps.
  Notation U := (primal_param eps Hk s V).
  Notation C := (second_moment Phi).
  Let C_gram : Phi^T *m Phi = n%:R *: C.
  Proof. by rewrite /second_moment scalerA divff ?scale1r // pnatr_eq0 -lt0n. Qed.
  Lemma features_error : frobenius2 (Phi - Phi *m (U *m U^T)) = n%:R * \sum_(j | left_out s eps k j) s 0 j.
  Proof.
    have O : orthonormal U := param_orthonormal E eps Hk.
    have -> : Phi - Phi *m (U *m U^T) = Phi *m (1%:M - U *m U^T) by rewrite mulmxBr mulmx1.
    rewrite residual_rows; last 2 first.
      by rewrite trmx_mul trmxK.
      by rewrite mulmxA -[U *m U^T *m U]mulmxA O mulmx1.
    rewrite C_gram -scalemxAr mxtraceZ mulmxBl mul1mx linearB /= (trace_sum E). congr (_ * _).
    have -> : \tr (U *m U^T *m C) = \sum_(j | ~~ left_out s eps k j) s 0 j.
      rewrite -mulmxA mxtrace_mulC -mulmxA mxtrace_mulC (param_eigen E) mxtrace_mulC mulmxA O mul1mx mxtrace_diag.
      exact: vals_sum.
    rewrite (bigID (left_out s eps k)) /=. by rewrite addrK.
  Qed.
  Lemma features_best (M : 'M[R]_(n, d)) : (\rank M <= nystrom_dim eps (eigs_values Hk s))%N ->
    frobenius2 (Phi - Phi *m (U *m U^T)) <= frobenius2 (Phi - M).
  Proof.
    move=> HM. rewrite features_error.
    have [P [PT [PP [PM TP]]]] := projection M^T. rewrite mxrank_tr in TP.
    have MP : M *m P = M by rewrite -[M in RHS]trmxK -PM trmx_mul trmxK PT.
    apply: le_trans (fewer_rows (Phi - M) PT PP).
    have -> : (Phi - M) *m (1%:M - P) = Phi *m (1%:M - P).
      by rewrite mulmxBl [X in _ - X]mulmxBr mulmx1 MP subrr subr0.
    rewrite residual_rows // C_gram -scalemxAr mxtraceZ ler_wpmul2l ?ler0n //.
    have OV : V^T *m V = 1%:M by case: E.
    have VO : V *m V^T = 1%:M := mulmx1C OV.
    have s0 : forall j, 0 <= s 0 j := psd_spectrum E (second_moment_psd Phi).
    have -> : \tr ((1%:M - P) *m C) = \sum_j s 0 j * (1 - (V^T *m P *m V) j j).
      rewrite {1}(spectral E) !mulmxA mxtrace_mulC !mulmxA.
      have -> : V^T *m (1%:M - P) *m V = 1%:M - V^T *m P *m V by rewrite mulmxBr mulmx1 mulmxBl OV.
      rewrite /mxtrace. apply: eq_bigr => j _. by rewrite mul_diag_entry !mxE eqxx mulrC.
    have W j : (V^T *m P *m V) j j = frobenius2 (P *m col j V).
      exact: corner.
    have := @weights_at_most R d (fun j => s 0 j) (fun j => (V^T *m P *m V) j j) (fun j => ~~ left_out s eps k j).
    rewrite kept_card => H.
    rewrite (eq_bigl (fun j => ~~ ~~ left_out s eps k j)); last by move=> j; rewrite negbK.
    apply: H => //.
    - move=> j. rewrite W. apply: sumr_ge0 => i _. apply: sumr_ge0 => l _. exact: sqr_ge0.
    - move=> j. have -> : 1 = (V^T *m V) j j by rewrite OV mxE eqxx.
      rewrite -subr_ge0.
      have -> : (V^T *m V) j j - (V^T *m P *m V) j j = frobenius2 ((1%:M - P) *m col j V).
        have QT : (1%:M - P)^T = 1%:M - P by rewrite linearB /= trmx1 PT.
        have QQ : (1%:M - P) *m (1%:M - P) = 1%:M - P by rewrite mulmxBl mul1mx mulmxBr mulmx1 PP subrr subr0.
        have -> : (V^T *m V) j j - (V^T *m P *m V) j j = (V^T *m (1%:M - P) *m V) j j.
          by rewrite mulmxBr mulmx1 mulmxBl [RHS]mxE; congr (_ + _); rewrite [RHS]mxE.
        exact: corner.
      apply: sumr_ge0 => i _. apply: sumr_ge0 => l _. exact: sqr_ge0.
    - move=> i j. exact: (kept_separated E).
    - have -> : \sum_j (V^T *m P *m V) j j = \tr P by rewrite -/(\tr _) mxtrace_mulC mulmxA VO mul1mx.
      by rewrite TP ler_nat.
  Qed.
End Features.
