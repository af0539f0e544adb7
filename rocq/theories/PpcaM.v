(** Probabilistic principal component analysis ([kerch/level/_PPCA.py],
    [kerch/level/single_view/PPCA.py]) on matrices over a real closed field.  Definitions only.
    The class cannot be created (see Abstract.v); here are the formulas of its methods. *)
From mathcomp Require Import all_ssreflect all_algebra.
From Verif Require Import NystromM KpcaM.
Set Implicit Arguments. Unset Strict Implicit. Unset Printing Implicit Defensive.
Import GRing.Theory Num.Theory.
Local Open Scope ring_scope.

Section Ppca.
  Variable R : rcfType.

  (** The attribute [sigma] set by both solvers (PPCA.py:48-51, 70-73).  [n] is the number of
      selected points, [M] the matrix decomposed, [v] its [q] largest eigenvalues. *)
  Definition ppca_noise (n : nat) d (M : 'M[R]_d) q (v : 'rV[R]_q) : R :=
    if q == n then 0 else (\tr M - \sum_i v 0 i) / (n%:R * (n%:R - q%:R)).

  (** The factors under the roots (53, 75) and whether all roots are numbers: torch gives NaN for
      the root of a negative number and for what a division by zero gives here.  A solution that
      is not made of numbers is [None]. *)
  Definition dual_factor (n : nat) (sigma v : R) : R := n%:R^-1 - sigma ^+ 2 / v.
  Definition primal_factor (n : nat) (sigma v : R) : R := v / n%:R - sigma ^+ 2.
  Definition ppca_hidden (n : nat) (sigma : R) q (v : 'rV[R]_q) (H : 'M[R]_(n, q)) : option 'M[R]_(n, q) :=
    if [forall i, (v 0 i != 0) && (0 <= dual_factor n sigma (v 0 i))]
    then Some (H *m diag_mx (\row_i Num.sqrt (dual_factor n sigma (v 0 i)))) else None.
  Definition ppca_weight (n : nat) (sigma : R) d q (v : 'rV[R]_q) (U : 'M[R]_(d, q)) : option 'M[R]_(d, q) :=
    if [forall i, 0 <= primal_factor n sigma (v 0 i)]
    then Some (U *m diag_mx (\row_i Num.sqrt (primal_factor n sigma (v 0 i)))) else None.

  (** [_solve_dual] (55-75) and [_solve_primal] (33-53), from what the eigendecomposition returns;
      [q] is the number of components, at most the size of the matrix. *)
  Definition ppca_dual n (K : 'M[R]_n) q (Hq : (q <= n)%N) (s : 'rV[R]_n) (V : 'M[R]_n) : option 'M[R]_(n, q) :=
    ppca_hidden (ppca_noise n K (eigs_values Hq s)) (eigs_values Hq s) (eigs_vectors Hq V).
  Definition ppca_primal n d (Phi : 'M[R]_(n, d)) q (Hq : (q <= d)%N) (s : 'rV[R]_d) (V : 'M[R]_d) : option 'M[R]_(d, q) :=
    ppca_weight n (ppca_noise n (second_moment Phi) (eigs_values Hq s)) (eigs_values Hq s) (eigs_vectors Hq V).

  (** [h_map] (PPCA.py:13-31).  The attribute behind [mu] does not exist; it is taken to be the
      row [mu]. *)
  Definition ppca_h_dual n q (H : 'M[R]_(n, q)) (v : 'rV[R]_q) m (k : 'M[R]_(m, n)) : 'M[R]_(m, q) :=
    n%:R *: (k *m H *m diag_mx (map_mx (fun x => x^-1) v)).
  Definition ppca_h_primal (n : nat) d q (mu : 'rV[R]_d) (W : 'M[R]_(d, q)) (v : 'rV[R]_q) m (phi : 'M[R]_(m, d)) : 'M[R]_(m, q) :=
    n%:R *: ((phi - \matrix_(i, j) mu 0 j) *m W *m diag_mx (map_mx (fun x => x^-1) v)).
  (** [phi_map] and [k_map] without [use_mean] (_PPCA.py:210-236). *)
  Definition ppca_phi_map d q (W : 'M[R]_(d, q)) m (h : 'M[R]_(m, q)) : 'M[R]_(m, d) := h *m W^T.
  Definition ppca_k_map n q (K : 'M[R]_n) (H : 'M[R]_(n, q)) m (h : 'M[R]_(m, q)) : 'M[R]_(m, n) := h *m H^T *m K.

  (** [draw_phi] with [posterior] and without [use_mean] (_PPCA.py:250-269): [L] is what the
      Cholesky decomposition of [ppca_covariance] (136-143) gives, a lower triangular matrix, and
      [u] what the normal generator gives.  The noise is the option [feature_noise], not the one
      of the solution. *)
  Definition ppca_covariance d q (W : 'M[R]_(d, q)) (noise : R) : 'M[R]_d := W *m W^T + noise ^+ 2 *: 1%:M.
  Definition ppca_draw d (L : 'M[R]_d) num (u : 'M[R]_(num, d)) : 'M[R]_(num, d) := u *m L.
End Ppca.
