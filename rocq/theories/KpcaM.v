(** Kernel principal component analysis ([kerch/level/_KPCA.py]) on matrices over a real
    closed field.  Definitions only. *)
From mathcomp Require Import all_ssreflect all_algebra.
From Verif Require Import NystromM.
Set Implicit Arguments. Unset Strict Implicit. Unset Printing Implicit Defensive.
Import GRing.Theory Num.Theory.
Local Open Scope ring_scope.

Section Kpca.
  Variable R : rcfType.

  (** The matrix decomposed in primal ([_base_kernel.py:269-276], [kernel.py:166-169]): the
      second moment of the features of the [n] selected points. *)
  Definition second_moment n d (Phi : 'M[R]_(n, d)) : 'M[R]_d := n%:R^-1 *: (Phi^T *m Phi).

  (** [_solve_primal] (_KPCA.py:111-142): [s], [V] is what the eigendecomposition of the
      matrix returns; at most [k] components are kept, those below the threshold are
      pruned. *)
  Definition primal_vals d (eps : R) k (Hk : (k <= d)%N) (s : 'rV[R]_d) := prune_values eps (eigs_values Hk s).
  Definition primal_param d (eps : R) k (Hk : (k <= d)%N) (s : 'rV[R]_d) (V : 'M[R]_d) :=
    prune_vectors eps (eigs_values Hk s) (eigs_vectors Hk V).
  (** [_solve_dual] (_KPCA.py:144-176): the same on the kernel matrix, the eigenvalues being
      divided by the number of points (line 176). *)
  Definition dual_vals n (eps : R) k (Hk : (k <= n)%N) (s : 'rV[R]_n) := n%:R^-1 *: prune_values eps (eigs_values Hk s).
  Definition dual_param n (eps : R) k (Hk : (k <= n)%N) (s : 'rV[R]_n) (V : 'M[R]_n) :=
    prune_vectors eps (eigs_values Hk s) (eigs_vectors Hk V).

  (** [W] (_KPCA.py:207-209); [sqrt_vals] is taken to be up to date (see [ViewState.v]). *)
  Definition weight d q (U : 'M[R]_(d, q)) (vals : 'rV[R]_q) : 'M[R]_(d, q) :=
    U *m diag_mx (map_mx (fun v => Num.sqrt v) vals).
  (** [h] (_KPCA.py:255-273), [phi_map] (275-288), [k_map] (290-305). *)
  Definition h_primal d q (U : 'M[R]_(d, q)) (vals : 'rV[R]_q) m (phi : 'M[R]_(m, d)) : 'M[R]_(m, q) :=
    phi *m weight U vals *m diag_mx (map_mx (fun v => v^-1) vals).
  Definition h_dual n q (H : 'M[R]_(n, q)) (vals : 'rV[R]_q) m (k : 'M[R]_(m, n)) : 'M[R]_(m, q) :=
    k *m H *m diag_mx (map_mx (fun v => v^-1) vals).
  Definition phi_map d q (U : 'M[R]_(d, q)) (vals : 'rV[R]_q) m (h : 'M[R]_(m, q)) : 'M[R]_(m, d) := h *m (weight U vals)^T.
  Definition k_map n q (K : 'M[R]_n) (H : 'M[R]_(n, q)) m (h : 'M[R]_(m, q)) : 'M[R]_(m, n) := h *m H^T *m K.

  (** [phiw] (_View.py:324-344), the output of a level without bias. *)
  Definition forward_primal d q (U : 'M[R]_(d, q)) (vals : 'rV[R]_q) m (phi : 'M[R]_(m, d)) : 'M[R]_(m, q) := phi *m weight U vals.
  Definition forward_dual n q (H : 'M[R]_(n, q)) m (k : 'M[R]_(m, n)) : 'M[R]_(m, q) := k *m H.

  (** [model_variance] (_KPCA.py:75-92), [total_variance] (46-73), both without
      normalisation, and [relative_variance] (98-109).  What reading the total variance
      does to the cached value is in [TotalVariance.v]. *)
  Definition model_variance q (vals : 'rV[R]_q) : R := \sum_i vals 0 i.
  Definition total_variance n (M : 'M[R]_n) : R := \tr M.
  Definition relative_variance n q (M : 'M[R]_n) (vals : 'rV[R]_q) : R := model_variance vals / total_variance M.

  (** [loss] (_KPCA.py:211-248): [param] is [primal_param] with the second moment, or
      [dual_param] with the kernel matrix; it is stored transposed. *)
  Definition loss n q (M : 'M[R]_n) (param : 'M[R]_(n, q)) : R :=
    let stored := param^T in \tr M - \tr (stored^T *m stored *m M).
End Kpca.
