(** The Nystrom feature map ([kerch/kernel/nystrom.py:115-163], [kerch/utils/math.py:6-68])
    on matrices over a real closed field.  Definitions only. *)
From mathcomp Require Import all_ssreflect all_algebra.
Set Implicit Arguments. Unset Strict Implicit. Unset Printing Implicit Defensive.
Import GRing.Theory Num.Theory.
Local Open Scope ring_scope.

Section Nystrom.
  Variables (R : rcfType) (n : nat).

  (** [utils.eigs(K, k)] (math.py:36-48): [torch.linalg.eigh] returns the eigenvalues [s]
      in ascending order with the eigenvectors as the columns of [V]; the last [k] ones
      are kept, in reverse order.  [lobpcg] (math.py:36), used for small [k], is taken
      to return the same pairs.  [k] is at least one: for [k = 0] the slice [-0:] of line
      45 would keep everything. *)
  Definition top k (Hk : (k <= n)%N) (i : 'I_k) : 'I_n := rev_ord (widen_ord Hk i).
  Definition eigs_values k (Hk : (k <= n)%N) (s : 'rV[R]_n) : 'rV[R]_k := \row_i s 0 (top Hk i).
  Definition eigs_vectors k (Hk : (k <= n)%N) (V : 'M[R]_n) : 'M[R]_(n, k) := \matrix_(a, i) V a (top Hk i).

  (** Pruning (nystrom.py:133-145): the columns whose eigenvalue is not below the threshold. *)
  Definition kept (eps : R) k (l : 'rV[R]_k) : seq 'I_k := [seq i <- enum 'I_k | ~~ (l 0 i < eps)].
  Definition nystrom_dim (eps : R) k (l : 'rV[R]_k) : nat := size (kept eps l).
  Definition prune_values (eps : R) k (l : 'rV[R]_k) : 'rV[R]_(nystrom_dim eps l) :=
    \row_i l 0 (tnth (in_tuple (kept eps l)) i).
  Definition prune_vectors (eps : R) k (l : 'rV[R]_k) (H : 'M[R]_(n, k)) : 'M[R]_(n, nystrom_dim eps l) :=
    \matrix_(a, i) H a (tnth (in_tuple (kept eps l)) i).

  (** The features of the sample (nystrom.py:152-153) and of other points, of kernel
      matrix [Kx] with the sample (nystrom.py:162-163). *)
  Definition sample_phi (eps : R) k (l : 'rV[R]_k) (H : 'M[R]_(n, k)) : 'M[R]_(n, nystrom_dim eps l) :=
    prune_vectors eps l H *m diag_mx (map_mx (fun v => Num.sqrt v) (prune_values eps l)).
  Definition oos_phi (eps : R) k (l : 'rV[R]_k) (H : 'M[R]_(n, k)) m (Kx : 'M[R]_(m, n)) : 'M[R]_(m, nystrom_dim eps l) :=
    Kx *m prune_vectors eps l H *m diag_mx (map_mx (fun v => (Num.sqrt v)^-1) (prune_values eps l)).

  (** The whole computation, from the decomposition of the kernel matrix. *)
  Definition nystrom_sample (eps : R) k (Hk : (k <= n)%N) s V := sample_phi eps (eigs_values Hk s) (eigs_vectors Hk V).
  Definition nystrom_oos (eps : R) k (Hk : (k <= n)%N) s V m (Kx : 'M[R]_(m, n)) :=
    oos_phi eps (eigs_values Hk s) (eigs_vectors Hk V) Kx.
End Nystrom.
