(** Property theorem C147: the scale of a level. *)
From Verif Require Import Base Kappa KappaProofs.
From mathcomp Require Import all_ssreflect all_algebra.
Set Implicit Arguments. Unset Strict Implicit. Unset Printing Implicit Defensive.
Import GRing.Theory Num.Theory.
Local Open Scope ring_scope.

(** * C147 *)

(** A level created with a scale has the kernel times this scale, which is also the product of
    its features. *)
Theorem C147_created_partial :
  forall (R : rcfType) (kappa : R) (s : scale R) m n d (X : 'M[R]_(m, d)) (Y : 'M[R]_(n, d)), create_scale kappa = Ok s ->
    level_phi s X *m (level_phi s Y)^T = level_k s (X *m Y^T) /\ level_k s (X *m Y^T) = kappa *: (X *m Y^T).
Proof. exact scaled_kernel. Qed.
Print Assumptions C147_created_partial.
Theorem C147_negative_partial :
  forall (R : rcfType) (kappa : R), is_ok (create_scale kappa) = (0 <= kappa).
Proof. by move=> R kappa; rewrite /create_scale; case: Order.TotalTheory.ltP. Qed.
Print Assumptions C147_negative_partial.
(** Once it is changed, the features keep the first scale for ever and no longer match. *)
Theorem C147_setter_refuted :
  forall (R : rcfType) (kappa : R) (s : scale R) (vs : seq R) (v : R) m n d (X : 'M[R]_(m, d)) (Y : 'M[R]_(n, d)),
    create_scale kappa = Ok s ->
    let s' := set_kappas s (rcons vs v) in
    level_phi s' X *m (level_phi s' Y)^T = kappa *: (X *m Y^T) /\ level_k s' (X *m Y^T) = v *: (X *m Y^T) /\
    (level_phi s' X *m (level_phi s' Y)^T = level_k s' (X *m Y^T) <-> kappa = v \/ X *m Y^T = 0).
Proof. exact set_kernel. Qed.
Print Assumptions C147_setter_refuted.
(** The weights computed from the dual variables predict the same as these only for a scale of
    one: the predictions in dual leave the scale out. *)
Theorem C147_predictions_refuted :
  forall (R : rcfType) (kappa : R) (s : scale R) (vs : seq R) n d q (Phi : 'M[R]_(n, d)) (h : 'M[R]_(n, q)) b m (X : 'M[R]_(m, d)),
    create_scale kappa = Ok s ->
    let s' := set_kappas s vs in
    let k := X *m Phi^T in
    level_primal s' (primal_from_dual s' Phi h) b X = Num.sqrt kappa *: (k *m h) + bias_rows m s' b /\
    (level_primal s' (primal_from_dual s' Phi h) b X = level_dual s' h b k <-> kappa = 1 \/ k *m h = 0).
Proof. exact predictions. Qed.
Print Assumptions C147_predictions_refuted.
(** On its own sample the features that a level gives by [Phi] leave the scale out, while those
    that it gives by [phi()] carry it; likewise for the covariance by [C] and by [c()]. *)
Theorem C147_sample_refuted :
  forall (R : rcfType) (kappa : R) (s : scale R) (vs : seq R) n d (Phi : 'M[R]_(n, d)), create_scale kappa = Ok s ->
    let s' := set_kappas s vs in
    level_Phi s' Phi = Phi /\ (level_phi s' Phi = level_Phi s' Phi <-> kappa = 1 \/ Phi = 0) /\
    level_c s' Phi = kappa *: level_C s' Phi /\ (level_c s' Phi = level_C s' Phi <-> kappa = 1 \/ level_C s' Phi = 0).
Proof.
  intros R kappa s vs n d Phi C s'.
  destruct (sample_features vs Phi C) as [A B]. destruct (sample_covariance vs Phi C) as [D E]. tauto.
Qed.
Print Assumptions C147_sample_refuted.
(** The total variance of a level in dual is that in primal, times the number of points and the
    scale. *)
Theorem C147_total_variance_partial :
  forall (R : rcfType) (s : scale R) n d (Phi : 'M[R]_(n.+1, d)),
    \tr (level_K s Phi) = sc_kappa s * (n.+1%:R * \tr (level_C s Phi)).
Proof. exact total_variance. Qed.
Print Assumptions C147_total_variance_partial.
(** In both representations the bias is added times the root of the first scale. *)
Theorem C147_bias_partial :
  forall (R : rcfType) (kappa : R) (s : scale R) (vs : seq R) m n d q (w : 'M[R]_(d, q)) (h : 'M[R]_(n, q)) (b : 'rV[R]_q)
    (X : 'M[R]_(m, d)) (k : 'M[R]_(m, n)) i j, create_scale kappa = Ok s ->
    let s' := set_kappas s vs in
    level_primal s' w (Some b) X i j - level_primal s' w None X i j = Num.sqrt kappa * b 0 j /\
    level_dual s' h (Some b) k i j - level_dual s' h None k i j = Num.sqrt kappa * b 0 j.
Proof.
  move=> R kappa s vs m n d q w h b X k i j C.
  have E : sc_sqrt (set_kappas s vs) = Num.sqrt kappa.
    move: C; rewrite /create_scale; case: (kappa < 0) => // -[<-].
    by elim/last_ind: vs => [|vs v IH] //; rewrite /set_kappas foldl_rcons.
  rewrite /level_primal /level_dual /bias_rows E; split.
  - by rewrite [X in X - _]mxE [X in _ - X]mxE [(\matrix_(i, j) _) i j]mxE [(0 : 'M_(_, _)) i j]mxE addr0 addrAC subrr add0r.
  - by rewrite [X in X - _]mxE [X in _ - X]mxE [(\matrix_(i, j) _) i j]mxE [(0 : 'M_(_, _)) i j]mxE addr0 addrAC subrr add0r.
Qed.
Print Assumptions C147_bias_partial.
Example C147_nontrivial (R : rcfType) :
  exists s : scale R, create_scale 4%:R = Ok s /\ sc_sqrt s = 2%:R /\
    let X := 1%:M : 'M[R]_2 in let s' := set_kappas s [:: 1; 9%:R] in
    sc_kappa s' = 9%:R /\ sc_sqrt s' = 2%:R /\ X *m X^T <> 0 /\ 4%:R <> 9%:R :> R.
Proof.
exists (Scale 4%:R (Num.sqrt 4%:R)). rewrite /create_scale.
have -> : 4%:R < 0 :> R = false by apply/negbTE; rewrite -Order.TotalTheory.leNgt ler0n.
have S : Num.sqrt 4%:R = 2%:R :> R by rewrite (natrX R 2 2 : 4%:R = _) sqrtr_sqr ger0_norm // ler0n.
split=> //. split=> //. split=> //. split=> //. split.
- move/eqP. by rewrite trmx1 mulmx1 -mxrank_eq0 mxrank1.
- by move/eqP; rewrite (eqr_nat _ 4 9).
Qed.
