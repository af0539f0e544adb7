(** The scale of a level: proofs. *)
From Verif Require Import Base Kappa.
From mathcomp Require Import all_ssreflect all_algebra.
Set Implicit Arguments. Unset Strict Implicit. Unset Printing Implicit Defensive.
Import GRing.Theory Num.Theory Order.TTheory.
Local Open Scope ring_scope.

Section Proofs.
  Variable R : rcfType.
  Implicit Types (s : scale R) (v kappa : R).

  Lemma set_sqrt s vs : sc_sqrt (set_kappas s vs) = sc_sqrt s.
  Proof. by elim: vs s => //= v vs IH s; rewrite -/(set_kappas _ _) IH. Qed.
  Lemma set_last s vs v : sc_kappa (set_kappas s (rcons vs v)) = v.
  Proof. by rewrite /set_kappas foldl_rcons. Qed.
  Lemma created kappa s : create_scale kappa = Ok s -> 0 <= kappa /\ sc_kappa s = kappa /\ sc_sqrt s * sc_sqrt s = kappa.
  Proof. by rewrite /create_scale; case: ltP => // K [<-]; split => //=; split => //; rewrite -expr2 sqr_sqrtr. Qed.
  Lemma created_ok kappa : 0 <= kappa -> exists s, create_scale kappa = Ok s.
  Proof. by rewrite /create_scale; case: ltP => // K _; eexists. Qed.

  Lemma phi_phi m n d s (X : 'M[R]_(m, d)) (Y : 'M[R]_(n, d)) :
    level_phi s X *m (level_phi s Y)^T = (sc_sqrt s * sc_sqrt s) *: (X *m Y^T).
  Proof. by rewrite /level_phi linearZ /= -scalemxAl -scalemxAr scalerA. Qed.
  Lemma scale_eq m n (a b : R) (M : 'M[R]_(m, n)) : a *: M = b *: M <-> a = b \/ M = 0.
  Proof.
    split=> [H|[->|->]] //; last by rewrite !scaler0.
    have : (a - b) *: M = 0 by rewrite scalerBl H subrr.
    by move/eqP; rewrite scaler_eq0 subr_eq0 => /orP [] /eqP; [left|right].
  Qed.

  Theorem scaled_kernel kappa s m n d (X : 'M[R]_(m, d)) (Y : 'M[R]_(n, d)) : create_scale kappa = Ok s ->
    level_phi s X *m (level_phi s Y)^T = level_k s (X *m Y^T) /\ level_k s (X *m Y^T) = kappa *: (X *m Y^T).
  Proof. by move=> /created [_ [K S]]; rewrite phi_phi S /level_k K. Qed.
  Theorem set_kernel kappa s vs v m n d (X : 'M[R]_(m, d)) (Y : 'M[R]_(n, d)) : create_scale kappa = Ok s ->
    let s' := set_kappas s (rcons vs v) in
    level_phi s' X *m (level_phi s' Y)^T = kappa *: (X *m Y^T) /\ level_k s' (X *m Y^T) = v *: (X *m Y^T) /\
    (level_phi s' X *m (level_phi s' Y)^T = level_k s' (X *m Y^T) <-> kappa = v \/ X *m Y^T = 0).
  Proof.
    move=> /created [_ [K S]] s'.
    have E : level_phi s' X *m (level_phi s' Y)^T = kappa *: (X *m Y^T) by rewrite phi_phi set_sqrt S.
    have F : level_k s' (X *m Y^T) = v *: (X *m Y^T) by rewrite /level_k set_last.
    by split=> //; split=> //; rewrite E F; exact: scale_eq.
  Qed.
  Lemma created_pos kappa s : create_scale kappa = Ok s -> 0 <= sc_sqrt s.
  Proof. by rewrite /create_scale; case: ltP => // K [<-] /=; exact: sqrtr_ge0. Qed.
  Lemma sqrt_one kappa s : create_scale kappa = Ok s -> sc_sqrt s = 1 <-> kappa = 1.
  Proof.
    move=> C; have [K [_ S]] := created C; have P := created_pos C; split=> E.
      by rewrite -S E mulr1.
    have : sc_sqrt s ^+ 2 == 1 ^+ 2 by rewrite expr1n expr2 S E.
    by rewrite eqr_expn2 ?ler01 // => /eqP.
  Qed.
  Theorem sample_features kappa s vs n d (Phi : 'M[R]_(n, d)) : create_scale kappa = Ok s ->
    let s' := set_kappas s vs in
    level_Phi s' Phi = Phi /\ (level_phi s' Phi = level_Phi s' Phi <-> kappa = 1 \/ Phi = 0).
  Proof.
    move=> C s'; split=> //; rewrite /level_phi /level_Phi set_sqrt -{2}[Phi]scale1r scale_eq.
    by rewrite (sqrt_one C).
  Qed.
  Lemma c_scaled kappa s vs n d (Phi : 'M[R]_(n, d)) : create_scale kappa = Ok s ->
    let s' := set_kappas s vs in level_c s' Phi = kappa *: level_C s' Phi.
  Proof.
    move=> /created [_ [K S]] s'.
    rewrite /level_c /level_C /level_phi /level_Phi set_sqrt.
    have -> : (sc_sqrt s *: Phi)^T = sc_sqrt s *: Phi^T by rewrite linearZ.
    by rewrite -scalemxAl -scalemxAr !scalerA -mulrA S mulrC.
  Qed.
  Theorem sample_covariance kappa s vs n d (Phi : 'M[R]_(n, d)) : create_scale kappa = Ok s ->
    let s' := set_kappas s vs in
    level_c s' Phi = kappa *: level_C s' Phi /\ (level_c s' Phi = level_C s' Phi <-> kappa = 1 \/ level_C s' Phi = 0).
  Proof.
    move=> C s'; split; first exact: c_scaled C.
    by rewrite {1}(c_scaled vs Phi C) -{2}[level_C s' Phi]scale1r scale_eq.
  Qed.
  Theorem total_variance s n d (Phi : 'M[R]_(n.+1, d)) :
    \tr (level_K s Phi) = sc_kappa s * (n.+1%:R * \tr (level_C s Phi)).
  Proof.
    rewrite /level_K /level_C /level_k /level_Phi !mxtraceZ mxtrace_mulC; congr (_ * _).
    by rewrite mulrA divff ?mul1r // pnatr_eq0.
  Qed.
  Theorem predictions kappa s vs n d q (Phi : 'M[R]_(n, d)) (h : 'M[R]_(n, q)) b m (X : 'M[R]_(m, d)) : create_scale kappa = Ok s ->
    let s' := set_kappas s vs in
    let k := X *m Phi^T in
    level_primal s' (primal_from_dual s' Phi h) b X = Num.sqrt kappa *: (k *m h) + bias_rows m s' b /\
    (level_primal s' (primal_from_dual s' Phi h) b X = level_dual s' h b k <-> kappa = 1 \/ k *m h = 0).
  Proof.
    move=> C s' k.
    have S : sc_sqrt s = Num.sqrt kappa by move: C; rewrite /create_scale; case: ltP => // K [<-].
    have E : level_primal s' (primal_from_dual s' Phi h) b X = Num.sqrt kappa *: (k *m h) + bias_rows m s' b.
      by rewrite /level_primal /primal_from_dual /level_phi /level_Phi set_sqrt S -scalemxAl mulmxA.
    split=> //; rewrite E /level_dual -{2}[k *m h]scale1r -(sqrt_one C) S; split.
      by move/addIr; rewrite scale_eq.
    by rewrite -scale_eq => ->.
  Qed.
End Proofs.
