(** Kernel principal component analysis: proofs. *)
From mathcomp Require Import all_ssreflect all_algebra.
From Verif Require Import NystromM MatrixSpec NystromMProofs KpcaM KpcaSpec.
Set Implicit Arguments. Unset Strict Implicit. Unset Printing Implicit Defensive.
Import GRing.Theory Num.Theory Order.POrderTheory Order.TotalTheory.
Local Open Scope ring_scope.

(** * Projections and squared norms *)
Section Norms.
  Variable R : realFieldType.
  Lemma frobenius2_trace m n (A : 'M[R]_(m, n)) : frobenius2 A = \tr (A *m A^T).
  Proof.
    rewrite /frobenius2 /mxtrace. apply: eq_bigr => i _. rewrite mxE. apply: eq_bigr => j _. by rewrite [(_^T) _ _]mxE expr2.
  Qed.
  Lemma frobenius2_ge0 m n (A : 'M[R]_(m, n)) : 0 <= frobenius2 A.
  Proof. apply: sumr_ge0 => i _. apply: sumr_ge0 => j _. exact: sqr_ge0. Qed.
  Lemma frobenius2_eq0 m n (A : 'M[R]_(m, n)) : frobenius2 A = 0 -> A = 0.
  Proof.
    move=> H. apply/matrixP => i j. rewrite mxE.
    have P : forall i, true -> 0 <= \sum_j A i j ^+ 2 by move=> a _; apply: sumr_ge0 => b _; exact: sqr_ge0.
    have Hi : \sum_j A i j ^+ 2 = 0 by apply: (psumr_eq0P P H).
    have Q : forall j, true -> 0 <= A i j ^+ 2 by move=> b _; exact: sqr_ge0.
    have Hj : A i j ^+ 2 = 0 by apply: (psumr_eq0P Q Hi).
    by move/eqP: Hj; rewrite sqrf_eq0 => /eqP.
  Qed.
  Lemma projector n q (U : 'M[R]_(n, q)) : orthonormal U -> projects_on U (U *m U^T).
  Proof.
    move=> O. split; first by rewrite mulmxA -[U *m U^T *m U]mulmxA O mulmx1.
    split; first by rewrite trmx_mul trmxK. split; first by rewrite -mulmxA O mulmx1.
    move=> x. exists (U^T *m x). by rewrite mulmxA.
  Qed.
  (** What is left of the rows of a matrix after projection, in squared norm. *)
  Lemma residual m n q (Phi : 'M[R]_(m, n)) (U : 'M[R]_(n, q)) : orthonormal U ->
    frobenius2 (Phi - Phi *m (U *m U^T)) = \tr (Phi^T *m Phi) - \tr (U *m U^T *m (Phi^T *m Phi)).
  Proof.
    move=> O. have [PP [PT _]] := projector O. move: (U *m U^T) PP PT => P PP PT.
    rewrite frobenius2_trace linearB /= trmx_mul PT mulmxBl !mulmxBr.
    have -> : Phi *m P *m (P *m Phi^T) = Phi *m P *m Phi^T by rewrite mulmxA -[Phi *m P *m P]mulmxA PP.
    rewrite mulmxA subrr subr0 linearB /=. congr (_ - _); first exact: mxtrace_mulC.
    by rewrite -mulmxA mxtrace_mulC mulmxA.
  Qed.
End Norms.

Section Solve.
  Variables (R : rcfType) (n : nat).
  Variables (K : 'M[R]_n) (s : 'rV[R]_n) (V : 'M[R]_n).
  Hypothesis E : eigendecomposition K s V.
  Variables (eps : R) (k : nat) (Hk : (k <= n)%N).
  Notation l := (eigs_values Hk s).
  Notation vals := (prune_values eps l).
  Notation param := (prune_vectors eps l (eigs_vectors Hk V)).
  Let t (i : 'I_(nystrom_dim eps l)) : 'I_n := top Hk (tnth (in_tuple (kept eps l)) i).

  Lemma t_inj : injective t.
  Proof.
    move=> i j /top_inj. set x0 := tnth _ i. rewrite {1}/x0 !(tnth_nth x0) /= => H. apply: val_inj. apply/eqP.
    have Uq : uniq (kept eps l) by rewrite filter_uniq ?enum_uniq.
    rewrite -(nth_uniq x0 (ltn_ord i) (ltn_ord j) Uq). by apply/eqP.
  Qed.
  Lemma param_entry a i : param a i = V a (t i).
  Proof. by rewrite !mxE. Qed.
  Lemma vals_entry i : vals 0 i = s 0 (t i).
  Proof. by rewrite !mxE. Qed.
  Lemma vals_ge i : eps <= vals 0 i.
  Proof. rewrite mxE. exact: kept_ge. Qed.
  Lemma param_orthonormal : orthonormal param.
  Proof.
    apply/matrixP => i j. case: E => O _. have := congr1 (fun M : 'M[R]_n => M (t i) (t j)) O.
    rewrite [X in _ = X -> _]mxE (inj_eq t_inj) [X in _ -> _ = X]mxE => <-. rewrite mxE [RHS]mxE.
    apply: eq_bigr => a _. by rewrite [(param^T) _ _]mxE [(V^T) _ _]mxE !param_entry.
  Qed.
  Lemma param_eigen : K *m param = param *m diag_mx vals.
  Proof.
    apply/matrixP => a i. case: E => _ [H _]. have := congr1 (fun M : 'M[R]_n => M a (t i)) H.
    rewrite !mul_diag_entry vals_entry param_entry => <-. rewrite mxE [RHS]mxE. apply: eq_bigr => b _. by rewrite param_entry.
  Qed.
  Lemma sym : K^T = K.
  Proof. by rewrite (spectral_mx E) !trmx_mul trmxK tr_diag_mx mulmxA. Qed.
  Lemma param_eigen_l : param^T *m K = diag_mx vals *m param^T.
  Proof. by have := congr1 (fun M => M^T) param_eigen; rewrite /= !trmx_mul tr_diag_mx sym. Qed.
  Lemma trace_sum : \tr K = \sum_j s 0 j.
  Proof.
    case: E => O _. by rewrite (spectral_mx E) -mulmxA mxtrace_mulC -mulmxA O mulmx1 mxtrace_diag.
  Qed.
  Lemma vals_sum : \sum_i vals 0 i = \sum_(j | ~~ left_out s eps k j) s 0 j.
  Proof. rewrite -(nystrom_reindex s eps Hk). apply: eq_bigr => i _. exact: vals_entry. Qed.
  Lemma truncated_entry a b : (param *m diag_mx vals *m param^T) a b = \sum_(j | ~~ left_out s eps k j) s 0 j * V a j * V b j.
  Proof.
    rewrite -(nystrom_reindex s eps Hk) mxE. apply: eq_bigr => i _.
    by rewrite mul_diag_entry [(_^T) _ _]mxE !param_entry vals_entry [V a _ * _]mulrC.
  Qed.
  Lemma truncated_exact : (forall j, left_out s eps k j -> s 0 j = 0) -> K *m (param *m param^T) = K.
  Proof.
    move=> Z. rewrite mulmxA param_eigen. apply/matrixP => a b. rewrite truncated_entry (spectral_entry E).
    rewrite [RHS](bigID (left_out s eps k)) /= [X in _ = X + _]big1 ?add0r // => j Hj. by rewrite Z // !mul0r.
  Qed.

  (** Explained variance. *)
  Theorem relative_between : psd K -> 0 < \tr K -> 0 <= relative_variance K vals <= 1.
  Proof.
    move=> P T. have S := psd_spectrum E P. rewrite /relative_variance /model_variance /total_variance.
    have H0 : 0 <= \sum_i vals 0 i by rewrite vals_sum sumr_ge0.
    apply/andP; split; first by apply: divr_ge0 => //; apply: ltW.
    rewrite ler_pdivr_mulr // mul1r vals_sum trace_sum.
    by rewrite [X in _ <= X](bigID (left_out s eps k)) /= ler_addr sumr_ge0.
  Qed.
  Theorem relative_one : 0 < \tr K -> (forall j, left_out s eps k j -> s 0 j = 0) -> relative_variance K vals = 1.
  Proof.
    move=> T Z. rewrite /relative_variance /model_variance /total_variance.
    have -> : \sum_i vals 0 i = \tr K; last by rewrite divff // lt0r_neq0.
    rewrite vals_sum trace_sum [RHS](bigID (left_out s eps k)) /= [X in _ = X + _]big1 ?add0r //.
  Qed.
  (** The exact value. *)
  Theorem relative_exact : 0 < \tr K ->
    relative_variance K vals = 1 - (\sum_(j | left_out s eps k j) s 0 j) / \tr K.
  Proof.
    move=> T. have N : \tr K != 0 by rewrite lt0r_neq0.
    rewrite /relative_variance /model_variance /total_variance vals_sum.
    apply: (mulIf N). rewrite divfK // mulrBl mul1r divfK // trace_sum [in RHS](bigID (left_out s eps k)) /=.
    by rewrite addrAC subrr add0r.
  Qed.
  Theorem relative_dual : relative_variance K (n%:R^-1 *: vals) = n%:R^-1 * relative_variance K vals.
  Proof.
    rewrite /relative_variance /model_variance mulrA. congr (_ / _). rewrite big_distrr /=. apply: eq_bigr => i _. by rewrite mxE.
  Qed.

  (** Back from the latent space, in dual. *)
  Theorem dual_back m (x : 'M[R]_(m, n)) : (0 < n)%N -> 0 < eps ->
    k_map K param (h_dual param (n%:R^-1 *: vals) x) = n%:R *: (x *m (param *m param^T)).
  Proof.
    move=> Hn He. rewrite /k_map /h_dual -!mulmxA param_eigen_l.
    have -> : diag_mx (map_mx (fun v => v^-1) (n%:R^-1 *: vals)) *m (diag_mx vals *m param^T) = n%:R *: param^T.
      apply/matrixP => i j. rewrite !mul_diag_mx !mxE. set v := s 0 _.
      have Nv : v != 0.
        apply: lt0r_neq0. apply: lt_le_trans He _. have := vals_ge i. by rewrite !mxE.
      have Nn : n%:R != 0 :> R by rewrite pnatr_eq0 -lt0n.
      by rewrite invfM invrK mulrA mulfVK.
    by rewrite -!scalemxAr.
  Qed.
End Solve.

Section Primal.
  Variables (R : rcfType).
  Lemma weight_back d q (U : 'M[R]_(d, q)) (vals : 'rV[R]_q) : (forall i, 0 < vals 0 i) ->
    weight U vals *m diag_mx (map_mx (fun v => v^-1) vals) *m (weight U vals)^T = U *m U^T.
  Proof.
    move=> P. rewrite /weight trmx_mul tr_diag_mx !mulmxA. congr (_ *m _).
    apply/matrixP => a i. rewrite !mul_diag_entry !mxE. set v := vals 0 i.
    have Nr : Num.sqrt v != 0 by rewrite sqrtr_eq0 -ltNge; apply: P.
    rewrite -!mulrA. have -> : Num.sqrt v * (v^-1 * Num.sqrt v) = 1; last by rewrite mulr1.
    by rewrite mulrCA -expr2 sqr_sqrtr ?mulVf ?lt0r_neq0 ?ltW // P.
  Qed.
  Theorem primal_back d q (U : 'M[R]_(d, q)) (vals : 'rV[R]_q) m (phi : 'M[R]_(m, d)) : (forall i, 0 < vals 0 i) ->
    phi_map U vals (h_primal U vals phi) = phi *m (U *m U^T).
  Proof. move=> P. by rewrite /phi_map /h_primal -(weight_back U P) !mulmxA. Qed.

  Variables (n d : nat) (Phi : 'M[R]_(n, d)).
  Hypothesis Hn : (0 < n)%N.
  Lemma nR_neq0 : n%:R != 0 :> R.
  Proof. by rewrite pnatr_eq0 -lt0n. Qed.
  (** The loss is a reconstruction error, in primal and in dual. *)
  Theorem loss_primal q (U : 'M[R]_(d, q)) : orthonormal U ->
    loss (second_moment Phi) U = n%:R^-1 * frobenius2 (Phi - Phi *m (U *m U^T)).
  Proof.
    move=> O. rewrite residual // /loss /second_moment trmxK -scalemxAr !linearZ /= mulrBr. by [].
  Qed.
  Theorem loss_dual q (H : 'M[R]_(n, q)) : orthonormal H ->
    loss (Phi *m Phi^T) H = frobenius2 (Phi - H *m H^T *m Phi).
  Proof.
    move=> O. have := residual Phi^T O. rewrite trmxK /loss trmxK => <-.
    have [_ [PT _]] := projector O. rewrite -{1}PT -trmx_mul -linearB /=.
    by rewrite !frobenius2_trace trmxK mxtrace_mulC.
  Qed.
  Lemma second_moment_psd : psd (second_moment Phi).
  Proof.
    move=> c. rewrite /qform /second_moment -scalemxAr -scalemxAl mxE mulr_ge0 ?invr_ge0 ?ler0n //.
    have -> : c^T *m (Phi^T *m Phi) *m c = (Phi *m c)^T *m (Phi *m c) by rewrite trmx_mul !mulmxA.
    rewrite mxE. apply: sumr_ge0 => i _. by rewrite [(_^T) _ _]mxE -expr2 sqr_ge0.
  Qed.
  Lemma moment_trace : \tr (second_moment Phi) = n%:R^-1 * \tr (Phi *m Phi^T).
  Proof. by rewrite /second_moment linearZ /= [\tr (Phi *m _)]mxtrace_mulC. Qed.

  (** With every non-zero component, going to the latent space and back changes nothing on
      the sample. *)
  Theorem primal_identity (s : 'rV[R]_d) V (eps : R) k (Hk : (k <= d)%N) :
    eigendecomposition (second_moment Phi) s V -> 0 < eps -> (forall j, left_out s eps k j -> s 0 j = 0) ->
    phi_map (primal_param eps Hk s V) (primal_vals eps Hk s) (h_primal (primal_param eps Hk s V) (primal_vals eps Hk s) Phi) = Phi.
  Proof.
    move=> E He Z. rewrite primal_back; last by move=> i; apply: (lt_le_trans He); apply: vals_ge.
    have O : orthonormal (primal_param eps Hk s V) by exact: (param_orthonormal E eps Hk).
    apply/eqP. rewrite eq_sym -subr_eq0. apply/eqP/frobenius2_eq0. apply: (mulfI (invr_neq0 nR_neq0)).
    rewrite -loss_primal // mulr0 /loss trmxK mxtrace_mulC (truncated_exact E) //. exact: subrr.
  Qed.

  (** Solving in dual solves in primal. *)
  Variables (s : 'rV[R]_n) (V : 'M[R]_n) (eps : R) (k : nat) (Hk : (k <= n)%N).
  Hypothesis E : eigendecomposition (Phi *m Phi^T) s V.
  Hypothesis He : 0 < eps.
  Notation vals := (dual_vals eps Hk s).
  Notation H := (dual_param eps Hk s V).
  (** The primal components that correspond to the dual ones. *)
  Definition primal_of_dual : 'M[R]_(d, nystrom_dim eps (eigs_values Hk s)) :=
    Phi^T *m H *m diag_mx (map_mx (fun v => (Num.sqrt v)^-1) (prune_values eps (eigs_values Hk s))).
  Lemma pvals_gt0 i : 0 < prune_values eps (eigs_values Hk s) 0 i.
  Proof. apply: (lt_le_trans He); apply: vals_ge. Qed.
  Lemma sqrt_neq0 i : Num.sqrt (prune_values eps (eigs_values Hk s) 0 i) != 0.
  Proof. by rewrite sqrtr_eq0 -ltNge pvals_gt0. Qed.
  Theorem primal_of_dual_orthonormal : orthonormal primal_of_dual.
  Proof.
    rewrite /orthonormal /primal_of_dual. set D := diag_mx _.
    rewrite !trmx_mul tr_diag_mx trmxK -/D.
    have -> : D *m (H^T *m Phi) *m (Phi^T *m H *m D) = D *m (H^T *m (Phi *m Phi^T *m H)) *m D by rewrite !mulmxA.
    rewrite (param_eigen E) [H^T *m _]mulmxA (param_orthonormal E) mul1mx.
    apply/matrixP => i j. rewrite mul_diag_entry mul_diag_mx !mxE. case: eqP => [<-|_]; last by rewrite mulr0n mulr0 mul0r.
    rewrite !mulr1n. have := sqrt_neq0 i. have := pvals_gt0 i. rewrite !mxE => P N. set v := s 0 _ in P N *.
    by rewrite -{2}[v]sqr_sqrtr ?ltW // expr2 mulrA mulVf // mul1r mulfV.
  Qed.
  Theorem primal_of_dual_eigen : second_moment Phi *m primal_of_dual = primal_of_dual *m diag_mx vals.
  Proof.
    rewrite /primal_of_dual /second_moment. set D := diag_mx _.
    have -> : (n%:R^-1 *: (Phi^T *m Phi)) *m (Phi^T *m H *m D) = n%:R^-1 *: (Phi^T *m (Phi *m Phi^T *m H) *m D).
      by rewrite -scalemxAl !mulmxA.
    rewrite (param_eigen E). apply/matrixP => a i.
    rewrite mxE !mul_diag_entry [Phi^T *m (_ *m _)]mulmxA mul_diag_entry ![(_ : 'rV_ _) 0 i]mxE.
    rewrite mulrCA. by rewrite [in RHS]mulrAC -!mulrA; congr (_ * _); rewrite mulrCA [_ * (_)^-1]mulrC.
  Qed.
  (** The outputs differ by the square root of the number of points. *)
  Theorem forward_scaled m (phi : 'M[R]_(m, d)) :
    forward_primal primal_of_dual vals phi = (Num.sqrt n%:R)^-1 *: forward_dual H (phi *m Phi^T).
  Proof.
    rewrite /forward_primal /forward_dual /weight /primal_of_dual. apply/matrixP => a i.
    rewrite [RHS]mxE !mulmxA !mul_diag_entry ![map_mx _ _ _ _]mxE [dual_vals _ _ _ _ _]mxE.
    set v := prune_values _ _ _ _. rewrite mulrC sqrtrM ?invr_ge0 ?ler0n // sqrtrV ?ler0n //.
    have N : Num.sqrt v != 0 by exact: sqrt_neq0.
    by rewrite -mulrA; congr (_ * _); rewrite mulrCA mulfV // mulr1.
  Qed.
End Primal.

(** Consequences in dual. *)
Section Dual.
  Variables (R : rcfType) (n : nat).
  Variables (K : 'M[R]_n) (s : 'rV[R]_n) (V : 'M[R]_n).
  Hypothesis E : eigendecomposition K s V.
  Variables (eps : R) (k : nat) (Hk : (k <= n)%N).
  Hypothesis Hn : (1 < n)%N.
  Lemma n_gt0 : 0 < n%:R :> R.
  Proof. rewrite ltr0n. by apply: ltn_trans Hn. Qed.
  Theorem dual_relative_below : psd K -> 0 < \tr K ->
    0 <= relative_variance K (dual_vals eps Hk s) <= n%:R^-1 /\ relative_variance K (dual_vals eps Hk s) < 1.
  Proof.
    move=> P T. rewrite /dual_vals relative_dual. have /andP[H0 H1] := relative_between E eps Hk P T.
    have Hi : 0 <= n%:R^-1 :> R by rewrite invr_ge0 ler0n.
    have A : n%:R^-1 * relative_variance K (prune_values eps (eigs_values Hk s)) <= n%:R^-1.
      by rewrite -[X in _ <= X]mulr1; apply: ler_wpmul2l.
    split; first by rewrite mulr_ge0.
    apply: (le_lt_trans A). by rewrite invf_lt1 ?n_gt0 // ltr1n.
  Qed.
  Theorem dual_relative_all : 0 < \tr K -> (forall j, left_out s eps k j -> s 0 j = 0) ->
    relative_variance K (dual_vals eps Hk s) = n%:R^-1.
  Proof. move=> T Z. by rewrite /dual_vals relative_dual (relative_one E) // mulr1. Qed.
  Theorem dual_not_projection m (x : 'M[R]_(m, n)) : 0 < eps ->
    let P := dual_param eps Hk s V *m (dual_param eps Hk s V)^T in
    x *m P != 0 -> k_map K (dual_param eps Hk s V) (h_dual (dual_param eps Hk s V) (dual_vals eps Hk s) x) != x *m P.
  Proof.
    move=> He P HP. rewrite /dual_vals (dual_back E) //; last by apply: ltn_trans Hn.
    rewrite -/P. rewrite -subr_eq0. have -> : n%:R *: (x *m P) - x *m P = (n%:R - 1) *: (x *m P) by rewrite scalerBl scale1r.
    rewrite scaler_eq0 negb_or HP andbT subr_eq0 -[1]/(1%:R) eqr_nat. by case: n Hn => [|[|q]].
  Qed.
  Theorem dual_sample : 0 < eps -> (forall j, left_out s eps k j -> s 0 j = 0) ->
    k_map K (dual_param eps Hk s V) (h_dual (dual_param eps Hk s V) (dual_vals eps Hk s) K) = n%:R *: K.
  Proof.
    move=> He Z. rewrite /dual_vals (dual_back E) //; last by apply: ltn_trans Hn.
    by rewrite (truncated_exact E).
  Qed.
End Dual.
Section Outputs.
  Variables (R : rcfType) (n d : nat) (Phi : 'M[R]_(n, d)).
  Hypothesis Hn : (1 < n)%N.
  Variables (s : 'rV[R]_n) (V : 'M[R]_n) (eps : R) (k : nat) (Hk : (k <= n)%N).
  Hypothesis E : eigendecomposition (Phi *m Phi^T) s V.
  Hypothesis He : 0 < eps.
  Theorem outputs_differ m (phi : 'M[R]_(m, d)) : forward_dual (dual_param eps Hk s V) (phi *m Phi^T) != 0 ->
    forward_primal (primal_of_dual Phi s V eps Hk) (dual_vals eps Hk s) phi != forward_dual (dual_param eps Hk s V) (phi *m Phi^T).
  Proof.
    move=> N. have Hn0 : (0 < n)%N by apply: ltn_trans Hn.
    rewrite forward_scaled //.
    move: (forward_dual _ _) N => F N. rewrite -subr_eq0 -[X in _ - X]scale1r -scalerBl scaler_eq0 negb_or N andbT subr_eq0.
    apply/eqP => H. have S : Num.sqrt n%:R = 1 :> R by rewrite -[LHS]invrK H invr1.
    have Q : n%:R = 1 :> R by rewrite -(sqr_sqrtr (ler0n R n)) S expr1n.
    move/eqP: Q. rewrite -[1]/(1%:R) eqr_nat. by case: n Hn => [|[|q]].
  Qed.
End Outputs.

Section Statements.
  Variables (R : rcfType) (n d : nat) (Phi : 'M[R]_(n, d)).
  Hypothesis Hn : (0 < n)%N.
  Theorem loss_primal_error q (U : 'M[R]_(d, q)) : orthonormal U ->
    exists P, projects_on U P /\ loss (second_moment Phi) U = n%:R^-1 * frobenius2 (Phi - Phi *m P) /\ 0 <= loss (second_moment Phi) U.
  Proof.
    move=> O. exists (U *m U^T). split; first exact: projector. have L := loss_primal Phi O. split; first exact: L.
    by rewrite L mulr_ge0 ?frobenius2_ge0 // invr_ge0 ler0n.
  Qed.
  Theorem loss_dual_error q (H : 'M[R]_(n, q)) : orthonormal H ->
    exists P, projects_on H P /\ loss (Phi *m Phi^T) H = frobenius2 (Phi - P *m Phi) /\ 0 <= loss (Phi *m Phi^T) H.
  Proof.
    move=> O. exists (H *m H^T). split; first exact: projector. have L := loss_dual Phi O. split; first exact: L.
    by rewrite L frobenius2_ge0.
  Qed.
  Theorem primal_projection (M : 'M[R]_d) (s : 'rV[R]_d) V (eps : R) k (Hk : (k <= d)%N) :
    eigendecomposition M s V -> 0 < eps ->
    exists P, projects_on (primal_param eps Hk s V) P /\ forall m (phi : 'M[R]_(m, d)),
      phi_map (primal_param eps Hk s V) (primal_vals eps Hk s) (h_primal (primal_param eps Hk s V) (primal_vals eps Hk s) phi) = phi *m P.
  Proof.
    move=> E He. exists (primal_param eps Hk s V *m (primal_param eps Hk s V)^T). split.
      apply: projector. exact: (param_orthonormal E eps Hk).
    move=> m phi. apply: primal_back => i. apply: (lt_le_trans He); apply: vals_ge.
  Qed.
  Theorem same_components (s : 'rV[R]_n) (V : 'M[R]_n) (eps : R) (k : nat) (Hk : (k <= n)%N) :
    eigendecomposition (Phi *m Phi^T) s V -> 0 < eps ->
    exists U : 'M[R]_(d, _), orthonormal U /\ second_moment Phi *m U = U *m diag_mx (dual_vals eps Hk s) /\
      U = Phi^T *m dual_param eps Hk s V *m diag_mx (map_mx (fun v => (Num.sqrt v)^-1) (prune_values eps (eigs_values Hk s))).
  Proof.
    move=> E He. exists (primal_of_dual Phi s V eps Hk). split; first exact: primal_of_dual_orthonormal.
    split; first exact: primal_of_dual_eigen. by [].
  Qed.
End Statements.
