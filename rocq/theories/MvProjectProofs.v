(** Predicting the features of the views that are not known: proofs. *)
From mathcomp Require Import all_ssreflect all_algebra.
From Verif Require Import NystromM MatrixSpec NystromMProofs KpcaM KpcaSpec KpcaMProofs GenerateProofs MvProjectM.
Set Implicit Arguments. Unset Strict Implicit. Unset Printing Implicit Defensive.
Import GRing.Theory Num.Theory Order.POrderTheory Order.TotalTheory.
Local Open Scope ring_scope.

Section Primal.
  Variables (R : rcfType) (dk dp q : nat) (Wk : 'M[R]_(dk, q)) (Wp : 'M[R]_(dp, q)) (vals : 'rV[R]_q).
  Hypothesis G : Wk^T *m Wk + Wp^T *m Wp = diag_mx vals.

  Lemma known_gram : diag_mx vals - Wp^T *m Wp = Wk^T *m Wk.
  Proof. by rewrite -G addrK. Qed.
  (** The latent variables that explain the known views best. *)
  Definition best m (phi : 'M[R]_(m, dk)) : 'M[R]_(m, q) := phi *m Wk *m invmx (Wk^T *m Wk).
  Lemma project_best m (phi : 'M[R]_(m, dk)) :
    project_primal Wk Wp vals phi = if Wk^T *m Wk \in unitmx then Some (best phi *m Wp^T) else None.
  Proof. by rewrite /project_primal known_gram. Qed.
  Lemma best_normal m (phi : 'M[R]_(m, dk)) : Wk^T *m Wk \in unitmx -> (phi - best phi *m Wk^T) *m Wk = 0.
  Proof. move=> U. by rewrite mulmxBl -[best phi *m _ *m _]mulmxA /best mulmxKV // subrr. Qed.
  Lemma frobenius2_sum m n (A B : 'M[R]_(m, n)) : A *m B^T = 0 -> frobenius2 (A + B) = frobenius2 A + frobenius2 B.
  Proof.
    move=> Z. rewrite !frobenius2_trace linearD /= mulmxDl !mulmxDr Z addr0.
    have -> : B *m A^T = 0 by rewrite -[LHS]trmxK trmx_mul trmxK Z trmx0.
    by rewrite add0r linearD.
  Qed.
  Lemma known_zero m (h : 'M[R]_(m, q)) : Wk^T *m Wk \in unitmx -> h *m Wk^T = 0 -> h = 0.
  Proof. move=> U Z. by rewrite -[h](mulmxK U) mulmxA Z mul0mx mul0mx. Qed.
  Lemma best_split m (phi : 'M[R]_(m, dk)) h : Wk^T *m Wk \in unitmx ->
    frobenius2 (phi - h *m Wk^T) = frobenius2 (phi - best phi *m Wk^T) + frobenius2 ((best phi - h) *m Wk^T).
  Proof.
    move=> U. rewrite -frobenius2_sum; first by rewrite mulmxBl addrA subrK.
    by rewrite trmx_mul trmxK mulmxA best_normal // mul0mx.
  Qed.
  Theorem best_least m (phi : 'M[R]_(m, dk)) h : Wk^T *m Wk \in unitmx ->
    frobenius2 (phi - best phi *m Wk^T) <= frobenius2 (phi - h *m Wk^T) /\
    (frobenius2 (phi - h *m Wk^T) = frobenius2 (phi - best phi *m Wk^T) -> h = best phi).
  Proof.
    move=> U. have S := best_split phi h U. rewrite S. split; first by rewrite ler_addl frobenius2_ge0.
    move=> Q. have Z : frobenius2 ((best phi - h) *m Wk^T) = 0.
      by apply: (addrI (frobenius2 (phi - best phi *m Wk^T))); rewrite Q addr0.
    move/frobenius2_eq0/(known_zero U): Z. move/eqP. by rewrite subr_eq0 => /eqP ->.
  Qed.
  Theorem project_range m (h : 'M[R]_(m, q)) : Wk^T *m Wk \in unitmx ->
    project_primal Wk Wp vals (h *m Wk^T) = Some (h *m Wp^T).
  Proof. move=> U. by rewrite project_best U /best -[h *m _ *m _]mulmxA mulmxK. Qed.
  (** When there is no prediction. *)
  Theorem project_none m (phi : 'M[R]_(m, dk)) :
    project_primal Wk Wp vals phi = None <-> exists h : 'rV[R]_q, h != 0 /\ h *m Wk^T = 0.
  Proof.
    rewrite project_best. split.
      case: ifP => // /negbT NU _. have : kermx (Wk^T *m Wk) != 0 by rewrite kermx_eq0 row_free_unit.
      case/rowV0Pn => h /sub_kermxP Z Nh. exists h. split=> //.
      apply: frobenius2_eq0. rewrite frobenius2_trace trmx_mul trmxK mulmxA -[h *m _ *m _]mulmxA Z mul0mx. exact: mxtrace0.
    case=> h [Nh Z]. case: ifP => // U. by rewrite (known_zero U Z) eqxx in Nh.
  Qed.
End Primal.

(** On the solution. *)
Section Solved.
  Variables (R : rcfType) (n dk dp : nat) (Pk : 'M[R]_(n, dk)) (Pp : 'M[R]_(n, dp)).
  Let Phi := row_mx Pk Pp.
  Variables (s : 'rV[R]_(dk + dp)) (V : 'M[R]_(dk + dp)) (eps : R) (k : nat) (Hk : (k <= dk + dp)%N).
  Hypothesis E : eigendecomposition (second_moment Phi) s V.
  Hypothesis He : 0 < eps.
  Notation U := (primal_param eps Hk s V).
  Notation v := (primal_vals eps Hk s).
  Notation W := (weight U v).
  Lemma solved_gram : (usubmx W)^T *m usubmx W + (dsubmx W)^T *m dsubmx W = diag_mx v.
  Proof.
    have O : orthonormal U := param_orthonormal E eps Hk.
    have P : forall i, 0 < v 0 i by move=> i; apply: (lt_le_trans He); exact: vals_ge.
    have WW := weight_gram O P. rewrite -WW -{5 6}(vsubmxK W) tr_col_mx mul_row_col. by [].
  Qed.
  Theorem training_exact : (0 < n)%N -> (forall j, left_out s eps k j -> s 0 j = 0) ->
    (usubmx W)^T *m usubmx W \in unitmx ->
    project_primal (usubmx W) (dsubmx W) v Pk = Some Pp.
  Proof.
    move=> Hn L Un. have I := primal_identity Hn Hk E He L. set h := h_primal U v Phi in I.
    have B : row_mx (h *m (usubmx W)^T) (h *m (dsubmx W)^T) = row_mx Pk Pp.
      rewrite -mul_mx_row -tr_col_mx vsubmxK. exact: I.
    have [Bk Bp] := eq_row_mx B. rewrite -Bk -Bp. exact: (project_range solved_gram).
  Qed.
End Solved.

(** In dual. *)
Section Dual.
  Variables (R : rcfType) (n : nat) (Kk Kp : 'M[R]_n) (s : 'rV[R]_n) (V : 'M[R]_n) (eps : R) (k : nat) (Hk : (k <= n)%N).
  Hypothesis E : eigendecomposition (Kk + Kp) s V.
  Hypothesis He : 0 < eps.
  Hypothesis Hn : (0 < n)%N.
  Notation H := (dual_param eps Hk s V).
  Notation l := (prune_values eps (eigs_values Hk s)).
  Notation v := (dual_vals eps Hk s).
  Let O : orthonormal H := param_orthonormal E eps Hk.
  Lemma dual_all : H^T *m (Kk + Kp) *m H = diag_mx l.
  Proof. by rewrite (param_eigen_l E eps Hk) -mulmxA O mulmx1. Qed.
  Lemma n_unit : (n%:R : R) != 0.
  Proof. by rewrite pnatr_eq0 -lt0n. Qed.
  Lemma diag_l : diag_mx l = n%:R *: diag_mx v.
  Proof.
    rewrite -[RHS]linearZ /=. congr diag_mx. by rewrite /dual_vals scalerA mulfV ?scale1r // n_unit.
  Qed.
  (** The matrix that is inverted. *)
  Theorem dual_inverted : diag_mx v - H^T *m Kp *m H = H^T *m Kk *m H - (n%:R - 1) *: diag_mx v.
  Proof.
    have Q : H^T *m Kk *m H = n%:R *: diag_mx v - H^T *m Kp *m H by rewrite -diag_l -dual_all mulmxDr mulmxDl addrK.
    by rewrite Q scalerBl scale1r opprB [RHS]addrC addrA subrK.
  Qed.
End Dual.
Section Twins.
  Variables (R : rcfType) (n : nat) (K : 'M[R]_n) (s : 'rV[R]_n) (V : 'M[R]_n) (eps : R) (k : nat) (Hk : (k <= n)%N).
  Hypothesis E : eigendecomposition (K + K) s V.
  Hypothesis He : 0 < eps.
  Notation H := (dual_param eps Hk s V).
  Notation l := (prune_values eps (eigs_values Hk s)).
  Notation v := (dual_vals eps Hk s).
  Let O : orthonormal H := param_orthonormal E eps Hk.
  Lemma twin_half : H^T *m K *m H = 2%:R^-1 *: diag_mx l.
  Proof.
    have N2 : (2%:R : R) != 0 by rewrite pnatr_eq0.
    apply: (scalerI N2). rewrite scalerA mulfV // scale1r -(dual_all eps Hk E) -[X in X *: _]/(1 + 1) scalerDl !scale1r.
    by rewrite mulmxDr mulmxDl.
  Qed.
  Lemma twin_inverted : (0 < n)%N -> diag_mx v - H^T *m K *m H = (n%:R^-1 - 2%:R^-1) *: diag_mx l.
  Proof.
    move=> Hn. rewrite twin_half scalerBl. congr (_ - _). rewrite -[RHS]linearZ. by [].
  Qed.
  (** Two points: nothing can be predicted. *)
  Theorem twins_two m (x : 'M[R]_(m, n)) : n = 2%N -> (0 < nystrom_dim eps (eigs_values Hk s))%N -> project_dual H v K x = None.
  Proof.
    move=> N2 Hq. have Hn0 : (0 < n)%N by rewrite N2.
    have C : n%:R^-1 - 2%:R^-1 = 0 :> R by rewrite [X in X%:R^-1]N2 subrr.
    rewrite /project_dual (twin_inverted Hn0) C scale0r. case: ifP => // Un.
    have : (0 : 'M[R]_(nystrom_dim eps (eigs_values Hk s))) *m invmx 0 = 1%:M by rewrite mulmxV.
    rewrite mul0mx. move/(congr1 (fun M : 'M[R]__ => M (Ordinal Hq) (Ordinal Hq))). rewrite !mxE eqxx /= => /eqP.
    by rewrite eq_sym oner_eq0.
  Qed.
  (** More points: the training points are predicted with the opposite sign. *)
  Theorem twins_more : (2 < n)%N -> (forall j, left_out s eps k j -> s 0 j = 0) ->
    project_dual H v K K = Some (- (n%:R / (n - 2)%:R) *: K).
  Proof.
    move=> Hn L. have Hn0 : (0 < n)%N by apply: ltn_trans Hn.
    have Nn : (n%:R : R) != 0 by rewrite pnatr_eq0 -lt0n.
    have N2 : (2%:R : R) != 0 by rewrite pnatr_eq0.
    have Nd : ((n - 2)%:R : R) != 0 by rewrite pnatr_eq0 subn_eq0 -ltnNge.
    pose c : R := n%:R^-1 - 2%:R^-1.
    have Ec : c = - ((n - 2)%:R / (2%:R * n%:R)).
      rewrite /c natrB; last exact: ltnW. rewrite mulrBl opprB. congr (_ - _).
        by rewrite invfM mulrA mulfV // mul1r.
      by rewrite [2%:R * _]mulrC invfM mulrA mulfV // mul1r.
    have Nc : c != 0 by rewrite Ec oppr_eq0 mulf_neq0 // invr_eq0 mulf_neq0.
    have P : forall i, 0 < l 0 i by move=> i; apply: (lt_le_trans He); exact: vals_ge.
    pose J := diag_mx (map_mx (fun x : R => x^-1) l).
    have LJ : diag_mx l *m J = 1%:M := diag_inv P.
    have DJ : (c *: diag_mx l) *m (c^-1 *: J) = 1%:M.
      by rewrite -scalemxAl -scalemxAr scalerA mulfV // scale1r LJ.
    have Un : c *: diag_mx l \in unitmx by case/mulmx1_unit: DJ.
    have Ei : invmx (c *: diag_mx l) = c^-1 *: J by rewrite -[LHS]mulmx1 -DJ mulKmx.
    rewrite /project_dual (twin_inverted Hn0) -/c Un Ei. congr Some.
    have KH : K *m H = 2%:R^-1 *: (H *m diag_mx l).
      apply: (scalerI N2). rewrite scalerA mulfV // scale1r -(param_eigen E eps Hk) -[X in X *: _]/(1 + 1) scalerDl !scale1r. by rewrite mulmxDl.
    have KP : H *m H^T *m K = K.
      have T := truncated_exact E Hk L. have := congr1 (fun M : 'M[R]_n => M^T) T.
      rewrite /= trmx_mul (sym E) trmx_mul trmxK => T2.
      apply: (scalerI N2). rewrite scalemxAr -[X in X *: _]/(1 + 1) scalerDl !scale1r. exact: T2.
    rewrite KH -!scalemxAl -!scalemxAr -!scalemxAl !scalerA -[H *m diag_mx l *m J]mulmxA LJ mulmx1 KP.
    congr (_ *: _). by rewrite Ec invrN mulrN invf_div mulrA mulrA mulVf // mul1r.
  Qed.
End Twins.
