(** Property theorem C203: the components of several views together and of each alone. *)
From mathcomp Require Import all_ssreflect all_algebra.
From Verif Require Import NystromM MatrixSpec KpcaM KpcaSpec InterlaceSpec SolverExamples ViewsM ViewsProofs ViewsExamples.
Set Implicit Arguments. Unset Strict Implicit. Unset Printing Implicit Defensive.
Import GRing.Theory Num.Theory Order.POrderTheory Order.TotalTheory.
Local Open Scope ring_scope.

(** * C203 *)

(** Dual: all the views together have at least the components of each view alone, each with at
    least its variance, and explain at least as much variance. *)
Theorem C203_dual :
  forall (R : rcfType) (n p : nat) (kappa : 'I_p -> R) (K : 'I_p -> 'M[R]_n),
    (forall v, 0 <= kappa v) -> (forall v, psd (K v)) ->
    forall (s : 'rV[R]_n) (V : 'M[R]_n) (t : 'I_p -> 'rV[R]_n) (W : 'I_p -> 'M[R]_n),
    eigendecomposition (all_K (fun v => view_K (kappa v) (K v))) s V ->
    (forall v, eigendecomposition (view_K (kappa v) (K v)) (t v) (W v)) ->
    forall (eps : R) (k : nat) (Hk : (k <= n)%N), 0 < eps -> forall v : 'I_p,
      (nystrom_dim eps (eigs_values Hk (t v)) <= nystrom_dim eps (eigs_values Hk s))%N /\
      (forall (i : component eps Hk (t v)) (j : component eps Hk s), i = j :> nat -> dual_vals eps Hk (t v) 0 i <= dual_vals eps Hk s 0 j) /\
      model_variance (dual_vals eps Hk (t v)) <= model_variance (dual_vals eps Hk s).
Proof. exact: each_below. Qed.
Print Assumptions C203_dual.

(** The views together explain at most what they explain each with as many components of its
    own, up to the threshold for each component that is asked for. *)
Theorem C203_at_most :
  forall (R : rcfType) (n p : nat) (kappa : 'I_p -> R) (K : 'I_p -> 'M[R]_n),
    (forall v, 0 <= kappa v) -> (forall v, psd (K v)) ->
    forall (s : 'rV[R]_n) (V : 'M[R]_n) (t : 'I_p -> 'rV[R]_n) (W : 'I_p -> 'M[R]_n),
    eigendecomposition (all_K (fun v => view_K (kappa v) (K v))) s V ->
    (forall v, eigendecomposition (view_K (kappa v) (K v)) (t v) (W v)) ->
    forall (eps : R) (k : nat) (Hk : (k <= n)%N), 0 < eps -> (0 < n)%N ->
      model_variance (dual_vals eps Hk s) <= \sum_v (model_variance (dual_vals eps Hk (t v)) + k%:R * eps / n%:R).
Proof. exact: joint_at_most. Qed.
Print Assumptions C203_at_most.

(** The loss of any hidden variables is the sum of their losses in the views; the loss of the
    solution is at least the sum of the losses of the views solved alone. *)
Theorem C203_loss :
  forall (R : rcfType) (n p : nat) (kappa : 'I_p -> R) (K : 'I_p -> 'M[R]_n),
    (forall v, 0 <= kappa v) -> (forall v, psd (K v)) ->
    (forall q (H : 'M[R]_(n, q)), loss (all_K (fun v => view_K (kappa v) (K v))) H = \sum_v loss (view_K (kappa v) (K v)) H) /\
    forall (s : 'rV[R]_n) (V : 'M[R]_n) (t : 'I_p -> 'rV[R]_n) (W : 'I_p -> 'M[R]_n),
    eigendecomposition (all_K (fun v => view_K (kappa v) (K v))) s V ->
    (forall v, eigendecomposition (view_K (kappa v) (K v)) (t v) (W v)) ->
    forall (eps : R) (k : nat) (Hk : (k <= n)%N), 0 < eps ->
      \sum_v loss (view_K (kappa v) (K v)) (dual_param eps Hk (t v) (W v)) <=
      loss (all_K (fun v => view_K (kappa v) (K v))) (dual_param eps Hk s V) + p%:R * (k%:R * eps).
Proof.
  move=> R n p kappa K k0 P. split; first by move=> q H; exact: loss_shared.
  move=> s V t W E F eps k Hk e0. exact: (joint_loss k0 P E F Hk e0).
Qed.
Print Assumptions C203_loss.

(** Primal, with the features of some views and of one more: each part alone has at most the
    components, variances and explained variance of both, and the total variances add up. *)
Theorem C203_primal :
  forall (R : rcfType) (n d e : nat) (Phi : 'M[R]_(n, d)) (Psi : 'M[R]_(n, e))
         (s : 'rV[R]_(d + e)) (V : 'M[R]_(d + e)) (t : 'rV[R]_d) (W : 'M[R]_d) (u : 'rV[R]_e) (U : 'M[R]_e),
    eigendecomposition (second_moment (all_phi Phi Psi)) s V ->
    eigendecomposition (second_moment Phi) t W -> eigendecomposition (second_moment Psi) u U ->
    total_variance (second_moment (all_phi Phi Psi)) = total_variance (second_moment Phi) + total_variance (second_moment Psi) /\
    forall (eps : R) (k : nat) (Hk : (k <= d + e)%N), 0 < eps ->
      (forall Hd : (k <= d)%N,
        (nystrom_dim eps (eigs_values Hd t) <= nystrom_dim eps (eigs_values Hk s))%N /\
        (forall (i : component eps Hd t) (j : component eps Hk s), i = j :> nat -> primal_vals eps Hd t 0 i <= primal_vals eps Hk s 0 j) /\
        model_variance (primal_vals eps Hd t) <= model_variance (primal_vals eps Hk s)) /\
      (forall He : (k <= e)%N,
        (nystrom_dim eps (eigs_values He u) <= nystrom_dim eps (eigs_values Hk s))%N /\
        (forall (i : component eps He u) (j : component eps Hk s), i = j :> nat -> primal_vals eps He u 0 i <= primal_vals eps Hk s 0 j) /\
        model_variance (primal_vals eps He u) <= model_variance (primal_vals eps Hk s)).
Proof.
  move=> R n d e Phi Psi s V t W u U E F G. split; first exact: moment_trace.
  move=> eps k Hk e0. split=> [Hd|He]; [exact: (primal_first E F Hk e0 Hd)|exact: (primal_second E G Hk e0 He)].
Qed.
Print Assumptions C203_primal.

(** The features of two views side by side, each with its factor, have the sum of the matrices of the
    views as inner products. *)
Theorem C203_features :
  forall (R : rcfType) (n d e : nat) (kappa lambda : R) (Phi : 'M[R]_(n, d)) (Psi : 'M[R]_(n, e)), 0 <= kappa -> 0 <= lambda ->
    let F := all_phi (view_phi kappa Phi) (view_phi lambda Psi) in
    F *m F^T = view_K kappa (Phi *m Phi^T) + view_K lambda (Psi *m Psi^T).
Proof.
  move=> R n d e kappa lambda Phi Psi K L; rewrite /= /all_phi tr_row_mx mul_row_col /view_phi /view_K.
  by rewrite !linearZ /= -!scalemxAl !scalerA -!expr2 !sqr_sqrtr.
Qed.
Print Assumptions C203_features.

Example C203_nontrivial (R : rcfType) :
  (forall v, 0 <= ex_kappa R v) /\ (forall v, psd (ex_views R v)) /\
  eigendecomposition (all_K (fun v => view_K (ex_kappa R v) (ex_views R v))) (\row_j (ladder R 0 j + 2%:R)) 1%:M /\
  (forall v, eigendecomposition (view_K (ex_kappa R v) (ex_views R v)) (ex_values R v) 1%:M) /\
  eigendecomposition (second_moment (all_phi (ex_phi R) (ex_psi R))) (const_mx (1 / 2%:R)) 1%:M /\
  eigendecomposition (second_moment (ex_phi R)) (const_mx (1 / 2%:R)) 1%:M /\
  eigendecomposition (second_moment (ex_psi R)) (const_mx (1 / 2%:R)) 1%:M.
Proof.
  split; first exact: ex_kappa_ge0. split; first exact: ex_psd. split; first exact: ex_joint. split; first exact: ex_each.
  split; first exact: ex_phi_all. split; [exact: ex_phi_first|exact: ex_phi_second].
Qed.
