(** What does not depend on the eigendecomposition that was found: proofs. *)
From mathcomp Require Import all_ssreflect all_fingroup all_algebra.
From Verif Require Import NystromM MatrixSpec NystromMProofs KpcaM KpcaSpec KpcaMProofs SolverSpec.
Set Implicit Arguments. Unset Strict Implicit. Unset Printing Implicit Defensive.
Import GRing.Theory Num.Theory Order.POrderTheory Order.TotalTheory.
Local Open Scope ring_scope.

Section Same.
  Variables (R : rcfType) (n : nat) (K : 'M[R]_n) (s s' : 'rV[R]_n) (V V' : 'M[R]_n).
  Hypotheses (E : eigendecomposition K s V) (E' : eigendecomposition K s' V').

  (** A function of the matrix. *)
  Lemma spectral_fun (f : R -> R) :
    V *m diag_mx (map_mx f s) *m V^T = V' *m diag_mx (map_mx f s') *m V'^T.
  Proof.
    have O := orth_rows E. have O' := orth_rows E'. pose Q := V^T *m V'.
    have SK : K^T = K by exact: (sym E).
    case: E => [Ho [He _]]. case: E' => [Ho' [He' _]].
    have Hs : diag_mx s *m Q = Q *m diag_mx s'.
      have L : V^T *m K = diag_mx s *m V^T by rewrite -[LHS]trmxK trmx_mul SK trmxK He trmx_mul tr_diag_mx.
      by rewrite /Q mulmxA -L -mulmxA He' mulmxA.
    have Hf : diag_mx (map_mx f s) *m Q = Q *m diag_mx (map_mx f s').
      apply/matrixP => i j. rewrite mul_diag_mx mul_mx_diag !mxE.
      have := congr1 (fun A : 'M[R]_n => A i j) Hs. rewrite mul_diag_mx mul_mx_diag !mxE.
      move: (\sum_k _) => q H. case: (eqVneq q 0) => [->|Nq]; first by rewrite mulr0 mul0r.
      have -> : s 0 i = s' 0 j; last by rewrite mulrC.
      by apply: (mulfI Nq); rewrite mulrC H.
    have -> : V *m diag_mx (map_mx f s) *m V^T = V *m (diag_mx (map_mx f s) *m Q) *m V'^T.
      by rewrite /Q !mulmxA -[_ *m V' *m V'^T]mulmxA O' mulmx1.
    by rewrite Hf /Q !mulmxA O mul1mx.
  Qed.

  Lemma count_trace (W : 'M[R]_n) (t : 'rV[R]_n) (P : pred R) : W^T *m W = 1%:M ->
    \tr (W *m diag_mx (map_mx (fun v => (P v)%:R) t) *m W^T) = #|[pred j | P (t 0 j)]|%:R.
  Proof.
    move=> H. rewrite -mulmxA mxtrace_mulC -mulmxA H mulmx1 mxtrace_diag -sum1_card natr_sum [RHS]big_mkcond /=.
    apply: eq_bigr => j _. rewrite mxE inE. by case: (P _).
  Qed.
  Lemma same_count (P : pred R) : #|[pred j | P (s 0 j)]| = #|[pred j | P (s' 0 j)]|.
  Proof.
    apply/eqP. case: (E) => [H _]. case: (E') => [H' _].
    by rewrite -(eqr_nat R) -(count_trace s P H) -(count_trace s' P H') (spectral_fun (fun v => (P v)%:R)).
  Qed.
End Same.

Section Values.
  Variables (R : rcfType) (n : nat).

  Lemma values_le (K : 'M[R]_n) (s s' : 'rV[R]_n) (V V' : 'M[R]_n) :
    eigendecomposition K s V -> eigendecomposition K s' V' -> forall j, s' 0 j <= s 0 j.
  Proof.
    move=> E E' j. rewrite leNgt. apply/negP => H.
    have C := same_count E E' (fun v => v <= s 0 j).
    case: E => [_ [_ A]]. case: E' => [_ [_ A']].
    have L : (j < #|[pred i : 'I_n | (s 0%R i <= s 0%R j)%R]|)%N.
      apply: (@leq_trans #|[pred i : 'I_n | (i <= j)%N]|); last first.
        apply: subset_leq_card. apply/subsetP => i. rewrite !inE. exact: A.
      rewrite -(card_ord j.+1). have I : injective (widen_ord (ltn_ord j)) by move=> a b /(congr1 val) /= ?; exact: val_inj.
      rewrite -(card_imset _ I). apply: subset_leq_card. apply/subsetP => i /imsetP[a _ ->]. by rewrite inE /= -ltnS.
    have U : (#|[pred i : 'I_n | (s' 0%R i <= s 0%R j)%R]| <= j)%N.
      apply: (@leq_trans #|[pred i : 'I_n | (i < j)%N]|).
        apply: subset_leq_card. apply/subsetP => i. rewrite !inE => Hi. rewrite ltnNge. apply/negP => ji.
        have := lt_le_trans H (A' _ _ ji). by rewrite ltNge Hi.
      rewrite -[X in (_ <= X)%N](card_ord j).
      have I : injective (widen_ord (ltnW (ltn_ord j))) by move=> a b /(congr1 val) /= ?; exact: val_inj.
      rewrite -(card_imset predT I). apply: subset_leq_card. apply/subsetP => i. rewrite inE => ij.
      apply/imsetP. by exists (Ordinal ij) => //; apply: val_inj.
    by move: (leq_trans L (eq_leq C)); rewrite ltnNge U.
  Qed.
  Theorem same_values (K : 'M[R]_n) (s s' : 'rV[R]_n) (V V' : 'M[R]_n) :
    eigendecomposition K s V -> eigendecomposition K s' V' -> s = s'.
  Proof. move=> E E'. apply/rowP => j. apply/eqP. by rewrite eq_le (values_le E' E) (values_le E E'). Qed.
End Values.

Section Kept.
  Variables (R : rcfType) (n : nat) (K : 'M[R]_n) (eps : R) (k : nat) (Hk : (k <= n)%N).

  Lemma separated_kept (s : 'rV[R]_n) : separated eps k s -> forall i j, left_out s eps k i -> ~~ left_out s eps k j -> s 0 i != s 0 j.
  Proof.
    move=> S i j Hi. rewrite {1}/left_out negb_or -leqNgt -leNgt => /andP[Hj Ej].
    case/orP: Hi => [Hi|Hi]; last by rewrite lt_eqF // (lt_le_trans Hi Ej).
    case: (S i j Hi Hj) => [L|L]; first by rewrite lt_eqF. by move: (lt_le_trans L Ej); rewrite ltxx.
  Qed.

  Variables (s : 'rV[R]_n) (V : 'M[R]_n).
  Definition is_kept (v : R) : bool := [exists j, ~~ left_out s eps k j && (s 0 j == v)].

  (** A function of the kept components. *)
  Lemma kept_fun (g : R -> R) :
    primal_param eps Hk s V *m diag_mx (map_mx g (primal_vals eps Hk s)) *m (primal_param eps Hk s V)^T =
    \matrix_(a, b) \sum_(j | ~~ left_out s eps k j) g (s 0 j) * V a j * V b j.
  Proof.
    apply/matrixP => a b. rewrite [RHS]mxE -(nystrom_reindex s eps Hk (fun j => g (s 0 j) * V a j * V b j)).
    rewrite mxE. apply: eq_bigr => i _. rewrite mul_mx_diag !mxE. by rewrite [V a _ * _]mulrC.
  Qed.
  Lemma kept_spectral (g : R -> R) : separated eps k s ->
    primal_param eps Hk s V *m diag_mx (map_mx g (primal_vals eps Hk s)) *m (primal_param eps Hk s V)^T =
    V *m diag_mx (map_mx (fun v => if is_kept v then g v else 0) s) *m V^T.
  Proof.
    move=> S. rewrite kept_fun. apply/matrixP => a b. rewrite [LHS]mxE [RHS]mxE [LHS]big_mkcond /=. apply: eq_bigr => j _.
    rewrite mul_mx_diag !mxE. case: ifP => [Hj|/negbT]; last rewrite negbK => Hj.
      have -> : is_kept (s 0 j) by rewrite /is_kept; apply/existsP; exists j; rewrite Hj eqxx.
      by rewrite [V a j * _]mulrC.
    have -> : is_kept (s 0 j) = false; last by rewrite mulr0 mul0r.
    rewrite /is_kept. apply/negbTE/negP => /existsP[i /andP[Hi /eqP Q]]. by move: (separated_kept S Hj Hi); rewrite Q eqxx.
  Qed.
End Kept.

Section Results.
  Variables (R : rcfType) (n : nat) (K : 'M[R]_n) (s s' : 'rV[R]_n) (V V' : 'M[R]_n).
  Hypotheses (E : eigendecomposition K s V) (E' : eigendecomposition K s' V').
  Variables (eps : R) (k : nat) (Hk : (k <= n)%N).
  Hypothesis S : separated eps k s.

  Lemma same_kept (g : R -> R) :
    primal_param eps Hk s V *m diag_mx (map_mx g (primal_vals eps Hk s)) *m (primal_param eps Hk s V)^T =
    primal_param eps Hk s' V' *m diag_mx (map_mx g (primal_vals eps Hk s')) *m (primal_param eps Hk s' V')^T.
  Proof.
    move: E'. rewrite -(same_values E E') => E2. rewrite !kept_spectral //. exact: spectral_fun E2 _.
  Qed.

  Lemma gram_kept m m' q (P : 'M[R]_(n, q)) (v : 'rV[R]_q) (g : R -> R) (x : 'M[R]_(m, n)) (y : 'M[R]_(m', n)) :
    (x *m P *m diag_mx (map_mx g v)) *m (y *m P *m diag_mx (map_mx g v))^T =
    x *m (P *m diag_mx (map_mx (fun a => g a * g a) v) *m P^T) *m y^T.
  Proof.
    rewrite !trmx_mul tr_diag_mx !mulmxA. congr (_ *m _ *m _). rewrite -!mulmxA. congr (_ *m (_ *m _)).
    apply/matrixP => i j. rewrite mul_diag_mx !mxE. by case: eqP => [->|]; rewrite ?mulr0n ?mulr0 ?mulr1n.
  Qed.
End Results.

Section Latent.
  Variables (R : rcfType) (n : nat) (K : 'M[R]_n) (s s' : 'rV[R]_n) (V V' : 'M[R]_n).
  Hypotheses (E : eigendecomposition K s V) (E' : eigendecomposition K s' V').
  Variables (eps : R) (k : nat) (Hk : (k <= n)%N).
  Hypothesis S : separated eps k s.

  Lemma h_primal_form q (U : 'M[R]_(n, q)) (v : 'rV[R]_q) m (phi : 'M[R]_(m, n)) :
    h_primal U v phi = phi *m U *m diag_mx (map_mx (fun a => Num.sqrt a * a^-1) v).
  Proof.
    rewrite /h_primal /weight !mulmxA -[LHS]mulmxA. congr (_ *m _).
    apply/matrixP => i j. rewrite mul_diag_mx !mxE. by case: eqP => [->|]; rewrite ?mulr0n ?mulr0 ?mulr1n.
  Qed.
  Lemma h_dual_form q (H : 'M[R]_(n, q)) (v : 'rV[R]_q) m (x : 'M[R]_(m, n)) :
    h_dual H (n%:R^-1 *: v) x = x *m H *m diag_mx (map_mx (fun a => (n%:R^-1 * a)^-1) v).
  Proof. congr (_ *m diag_mx _). apply/matrixP => i j. by rewrite !mxE. Qed.

  Theorem same_latent m m' (phi : 'M[R]_(m, n)) (psi : 'M[R]_(m', n)) :
    h_primal (primal_param eps Hk s V) (primal_vals eps Hk s) phi *m (h_primal (primal_param eps Hk s V) (primal_vals eps Hk s) psi)^T =
    h_primal (primal_param eps Hk s' V') (primal_vals eps Hk s') phi *m (h_primal (primal_param eps Hk s' V') (primal_vals eps Hk s') psi)^T.
  Proof. by rewrite !h_primal_form !gram_kept (same_kept E E'). Qed.
  Theorem same_forward m m' (phi : 'M[R]_(m, n)) (psi : 'M[R]_(m', n)) :
    forward_primal (primal_param eps Hk s V) (primal_vals eps Hk s) phi *m (forward_primal (primal_param eps Hk s V) (primal_vals eps Hk s) psi)^T =
    forward_primal (primal_param eps Hk s' V') (primal_vals eps Hk s') phi *m (forward_primal (primal_param eps Hk s' V') (primal_vals eps Hk s') psi)^T.
  Proof. by rewrite /forward_primal /weight !mulmxA !gram_kept (same_kept E E'). Qed.
  Theorem same_back m (phi : 'M[R]_(m, n)) :
    phi_map (primal_param eps Hk s V) (primal_vals eps Hk s) (h_primal (primal_param eps Hk s V) (primal_vals eps Hk s) phi) =
    phi_map (primal_param eps Hk s' V') (primal_vals eps Hk s') (h_primal (primal_param eps Hk s' V') (primal_vals eps Hk s') phi).
  Proof.
    have F : forall q (U : 'M[R]_(n, q)) v, phi_map U v (h_primal U v phi) =
        phi *m (U *m diag_mx (map_mx (fun a => Num.sqrt a * a^-1 * Num.sqrt a) v) *m U^T).
      move=> q U v. rewrite h_primal_form /phi_map /weight trmx_mul tr_diag_mx !mulmxA. congr (_ *m _).
      rewrite -!mulmxA. congr (_ *m (_ *m _)).
      apply/matrixP => i j. rewrite mul_diag_mx !mxE. by case: eqP => [->|]; rewrite ?mulr0n ?mulr0 ?mulr1n.
    by rewrite !F (same_kept E E').
  Qed.
  Theorem same_variance : model_variance (primal_vals eps Hk s) = model_variance (primal_vals eps Hk s').
  Proof. by rewrite (same_values E E'). Qed.
End Latent.

Section Order.
  Variables (R : rcfType) (n : nat) (K : 'M[R]_n) (s s' : 'rV[R]_n) (V V' : 'M[R]_n) (p : 'S_n).
  Hypothesis E : eigendecomposition K s V.
  (** The training points in another order. *)
  Hypothesis E' : eigendecomposition (\matrix_(i, j) K (p i) (p j)) s' V'.
  Variables (eps : R) (k : nat) (Hk : (k <= n)%N).
  Hypothesis S : separated eps k s.

  Definition back : 'M[R]_n := \matrix_(a, j) V' (p^-1 a)%g j.
  Lemma back_decomposition : eigendecomposition K s' back.
  Proof.
    case: E' => [Ho [He A]]. split; [|split; last exact: A].
      rewrite -Ho. apply/matrixP => i j. rewrite [LHS]mxE [RHS]mxE (reindex_inj (@perm_inj _ p)) /=.
      by apply: eq_bigr => a _; rewrite !mxE permK.
    apply/matrixP => i j. rewrite mul_mx_diag !mxE.
    have := congr1 (fun A : 'M[R]_n => A (p^-1 i)%g j) He. rewrite mul_mx_diag !mxE => <-.
    rewrite (reindex_inj (@perm_inj _ p)) /=. by apply: eq_bigr => a _; rewrite !mxE permK permKV.
  Qed.
  Lemma reorder_param m (x : 'M[R]_(m, n)) : reorder p x *m dual_param eps Hk s' V' = x *m dual_param eps Hk s' back.
  Proof.
    apply/matrixP => a i. rewrite [LHS]mxE [RHS]mxE [RHS](reindex_inj (@perm_inj _ p)) /=.
    apply: eq_bigr => b _. by rewrite !mxE permK.
  Qed.

  Theorem order_values : s = s'.
  Proof. exact: same_values E back_decomposition. Qed.
  Theorem order_latent m m' (x : 'M[R]_(m, n)) (y : 'M[R]_(m', n)) :
    h_dual (dual_param eps Hk s V) (dual_vals eps Hk s) x *m (h_dual (dual_param eps Hk s V) (dual_vals eps Hk s) y)^T =
    h_dual (dual_param eps Hk s' V') (dual_vals eps Hk s') (reorder p x) *m (h_dual (dual_param eps Hk s' V') (dual_vals eps Hk s') (reorder p y))^T.
  Proof.
    rewrite !h_dual_form !reorder_param !gram_kept. by rewrite (same_kept E back_decomposition).
  Qed.
  Theorem order_forward m m' (x : 'M[R]_(m, n)) (y : 'M[R]_(m', n)) :
    forward_dual (dual_param eps Hk s V) x *m (forward_dual (dual_param eps Hk s V) y)^T =
    forward_dual (dual_param eps Hk s' V') (reorder p x) *m (forward_dual (dual_param eps Hk s' V') (reorder p y))^T.
  Proof.
    have O : forall q (A : 'M[R]_(m, q)) (B : 'M[R]_(m', q)) (v : 'rV[R]_q),
        A *m B^T = A *m diag_mx (map_mx (fun=> 1) v) *m (B *m diag_mx (map_mx (fun=> 1) v))^T.
      move=> q A B v. have -> : diag_mx (map_mx (fun=> 1) v) = 1%:M :> 'M[R]_q by apply/matrixP => i j; rewrite !mxE.
      by rewrite !mulmx1.
    rewrite /forward_dual !reorder_param (O _ _ _ (primal_vals eps Hk s)) (O _ _ _ (primal_vals eps Hk s')) !gram_kept.
    by rewrite (same_kept E back_decomposition).
  Qed.
End Order.

Section Sign.
  Variables (R : rcfType) (n : nat) (K : 'M[R]_n) (s : 'rV[R]_n) (V V' : 'M[R]_n).
  Hypotheses (E : eigendecomposition K s V) (E' : eigendecomposition K s V').

  Lemma same_sign j : (forall i, i != j -> s 0 i != s 0 j) ->
    exists e : R, e ^+ 2 = 1 /\ forall a, V' a j = e * V a j.
  Proof.
    move=> D.
    have F : forall (W : 'M[R]_n) a b, (W *m diag_mx (map_mx (fun v => (v == s 0 j)%:R) s) *m W^T) a b = W a j * W b j.
      move=> W a b. rewrite mxE (bigD1 j) //= big1 => [|i Hi]; last first.
        by rewrite mul_mx_diag !mxE (negbTE (D i Hi)) mulr0 mul0r.
      by rewrite addr0 mul_mx_diag !mxE eqxx mulr1.
    have G : forall a b, V' a j * V' b j = V a j * V b j.
      move=> a b. by rewrite -!F (spectral_fun E E').
    case: (E) => [H _]. have N : exists a, V a j != 0.
      apply/existsP. apply: contraT. rewrite negb_exists => /forallP Z.
      have := congr1 (fun A : 'M[R]_n => A j j) H. rewrite !mxE eqxx big1 => [/eqP|a _]; first by rewrite eq_sym oner_eq0.
      have /negPn/eqP -> := Z a. by rewrite mulr0.
    case: N => a Na. exists (V' a j / V a j).
    have Q : (V' a j / V a j) ^+ 2 = 1 by rewrite expr_div_n expr2 G -expr2 mulfV // expf_neq0.
    split=> // b.
    have Na' : V' a j != 0.
      apply/negP => /eqP Z. move: Q. by rewrite Z mul0r expr0n /= => /eqP; rewrite eq_sym oner_eq0.
    apply: (mulfI Na'). rewrite G mulrA mulrA -expr2 -[V' a j ^+ 2 / _]mulr1.
    have -> : V' a j ^+ 2 = V a j ^+ 2 by rewrite expr2 G expr2.
    by rewrite mulr1 expr2 mulfK.
  Qed.
  Theorem sign_latent (eps : R) k (Hk : (k <= n)%N) (i : 'I_(nystrom_dim eps (eigs_values Hk s))) :
    (forall l, s 0 l = primal_vals eps Hk s 0 i -> l = top Hk (tnth (in_tuple (kept eps (eigs_values Hk s))) i)) ->
    exists e : R, e ^+ 2 = 1 /\ forall m (phi : 'M[R]_(m, n)) a,
      h_primal (primal_param eps Hk s V') (primal_vals eps Hk s) phi a i = e * h_primal (primal_param eps Hk s V) (primal_vals eps Hk s) phi a i.
  Proof.
    move=> D. set j := top Hk _ in D.
    have Hj : primal_vals eps Hk s 0 i = s 0 j by rewrite !mxE.
    case: (@same_sign j) => [l|e [He Hs]].
      apply: contraNneq => H. by apply/eqP/D; rewrite Hj.
    exists e. split=> // m phi a. rewrite !h_primal_form !mul_mx_diag !mxE mulrA. congr (_ * _).
    rewrite big_distrr /=. apply: eq_bigr => b _. by rewrite !mxE -/j Hs mulrCA.
  Qed.
End Sign.
