(** Points drawn from a kernel principal component analysis (C197). *)
From mathcomp Require Import all_ssreflect all_algebra.
From Verif Require Import NystromM MatrixSpec NystromMProofs KpcaM KpcaSpec KpcaMProofs GenerateM GenerateProofs GenerateExamples.
Set Implicit Arguments. Unset Strict Implicit. Unset Printing Implicit Defensive.
Import GRing.Theory Num.Theory Order.POrderTheory Order.TotalTheory.
Local Open Scope ring_scope.

(** * C197 *)

(** In primal: the latent variables of the training points have unit second moment, as
    those that are drawn have in expectation. *)
Theorem C197_latent_partial :
  forall (R : rcfType) (n d : nat) (Phi : 'M[R]_(n, d)) (s : 'rV[R]_d) (V : 'M[R]_d) (eps : R) (k : nat) (Hk : (k <= d)%N),
    eigendecomposition (second_moment Phi) s V -> 0 < eps ->
    second_moment (h_primal (primal_param eps Hk s V) (primal_vals eps Hk s) Phi) = 1%:M.
Proof. move=> R n d Phi s V eps k Hk E He. exact: sample_latent. Qed.
Print Assumptions C197_latent_partial.

(** Points drawn from latent variables of unit second moment have the second moment of the
    training points, projected on the kept components: exactly that of the training points
    if nothing but zero variances is left out, and otherwise what is missing of the total
    variance is what was left out. *)
Theorem C197_moment_partial :
  forall (R : rcfType) (n d : nat) (Phi : 'M[R]_(n, d)) (s : 'rV[R]_d) (V : 'M[R]_d) (eps : R) (k : nat) (Hk : (k <= d)%N),
    eigendecomposition (second_moment Phi) s V -> 0 < eps ->
    exists P, projects_on (primal_param eps Hk s V) P /\
    forall (posterior : bool) num (Z : 'M[R]_(num, _)), second_moment Z = 1%:M ->
      let drawn := draw_phi posterior (primal_param eps Hk s V) (primal_vals eps Hk s) Z in
      second_moment drawn = P *m second_moment Phi *m P /\
      \tr (second_moment Phi) - \tr (second_moment drawn) = \sum_(j : 'I_d | (j < d - k)%N || (s 0 j < eps)) s 0 j /\
      ((forall j : 'I_d, (j < d - k)%N || (s 0 j < eps) -> s 0 j = 0) -> second_moment drawn = second_moment Phi).
Proof.
move=> R n d Phi s V eps k Hk E He. have [P [Pp Pm]] := drawn_projected Hk E He. exists P. split=> // b num Z H /=.
split; first exact: Pm. split; first exact: drawn_missing. move=> L. exact: drawn_exact.
Qed.
Print Assumptions C197_moment_partial.

(** Whatever is drawn, its latent variables are those it was drawn from. *)
Theorem C197_recovered_partial :
  forall (R : rcfType) (d : nat) (M : 'M[R]_d) (s : 'rV[R]_d) (V : 'M[R]_d) (eps : R) (k : nat) (Hk : (k <= d)%N),
    eigendecomposition M s V -> 0 < eps ->
    forall (posterior : bool) num (Z : 'M[R]_(num, _)),
      h_primal (primal_param eps Hk s V) (primal_vals eps Hk s) (draw_phi posterior (primal_param eps Hk s V) (primal_vals eps Hk s) Z) = Z.
Proof.
move=> R d M s V eps k Hk E He b num Z. apply: drawn_latent; first exact: (param_orthonormal E eps Hk).
move=> i. apply: (lt_le_trans He). exact: vals_ge.
Qed.
Print Assumptions C197_recovered_partial.

(** The option [posterior] is not used. *)
Theorem C197_posterior :
  forall (R : rcfType) (b b' : bool) (n d q : nat) (K : 'M[R]_n) (H : 'M[R]_(n, q)) (U : 'M[R]_(d, q)) (vals : 'rV[R]_q) num (Z : 'M[R]_(num, q)),
    draw_phi b U vals Z = draw_phi b' U vals Z /\ draw_k b K H Z = draw_k b' K H Z.
Proof. by []. Qed.
Print Assumptions C197_posterior.

(** In dual all of it holds up to a factor that is the number of points. *)
Theorem C197_dual :
  forall (R : rcfType) (n : nat) (K : 'M[R]_n) (s : 'rV[R]_n) (V : 'M[R]_n) (eps : R) (k : nat) (Hk : (k <= n)%N),
    eigendecomposition K s V -> 0 < eps -> (0 < n)%N ->
    let H := dual_param eps Hk s V in let vals := dual_vals eps Hk s in
    second_moment (h_dual H vals K) = n%:R%:M /\
    (forall (posterior : bool) num (Z : 'M[R]_(num, _)), h_dual H vals (draw_k posterior K H Z) = n%:R *: Z) /\
    exists P, projects_on H P /\
    forall (posterior : bool) num (Z : 'M[R]_(num, _)), second_moment Z = 1%:M ->
      second_moment (draw_k posterior K H Z) = n%:R *: (P *m second_moment K *m P).
Proof.
move=> R n K s V eps k Hk E He Hn H vals. split; first exact: dual_sample_moment.
split; last exact: dual_drawn_moment. move=> b num Z. exact: dual_drawn_latent.
Qed.
Print Assumptions C197_dual.

(** Refuted in dual, for two points or more and whatever the kernel as soon as a component
    is kept. *)
Theorem C197_dual_refuted :
  forall (R : rcfType) (n : nat) (K : 'M[R]_n) (s : 'rV[R]_n) (V : 'M[R]_n) (eps : R) (k : nat) (Hk : (k <= n)%N),
    eigendecomposition K s V -> 0 < eps -> (1 < n)%N -> (0 < nystrom_dim eps (eigs_values Hk s))%N ->
    let H := dual_param eps Hk s V in let vals := dual_vals eps Hk s in
    second_moment (h_dual H vals K) != 1%:M /\
    (forall (posterior : bool) num (Z : 'M[R]_(num, _)), Z != 0 -> h_dual H vals (draw_k posterior K H Z) != Z) /\
    forall (posterior : bool) num (Z : 'M[R]_(num, _)) P, projects_on H P -> second_moment Z = 1%:M ->
      second_moment (draw_k posterior K H Z) != P *m second_moment K *m P.
Proof.
move=> R n K s V eps k Hk E He Hn Hq H vals. split; first exact: dual_latent_wrong.
split; first by move=> b num Z NZ; exact: dual_back_wrong. move=> b num Z P HP HZ. exact: (dual_moment_wrong E He Hn _ Hq HP HZ).
Qed.
Print Assumptions C197_dual_refuted.

Example C197_nontrivial (R : rcfType) :
  eigendecomposition (second_moment (ex_features R)) (ex_values R) 1%:M /\ eigendecomposition (diag_mx (ex_values R)) (ex_values R) 1%:M /\
  (0 : R) < 1 / 2%:R /\ nystrom_dim (1 / 2%:R) (eigs_values (isT : (1 <= 2)%N) (ex_values R)) = 1%N /\
  second_moment (const_mx 1 : 'M[R]_(1, nystrom_dim (1 / 2%:R) (eigs_values (isT : (1 <= 2)%N) (ex_values R)))) = 1%:M.
Proof.
split; first by rewrite ex_moment; exact: ex_decomposition. split; first exact: ex_decomposition. split; first exact: ex_positive.
split; first exact: ex_kept. apply: unit_moment. exact: ex_kept.
Qed.
