(** Mean centering of kernel matrices and of features ([kerch/transform/all/MeanCentering.py]) on
    matrices over a real closed field.  Definitions only. *)
From mathcomp Require Import all_ssreflect all_algebra.
Set Implicit Arguments. Unset Strict Implicit. Unset Printing Implicit Defensive.
Import GRing.Theory Num.Theory.
Local Open Scope ring_scope.

Section Center.
  Variable R : rcfType.

  (** [torch.mean(sample, dim=1, keepdim=True)] and the mean of these (12-15).  On an empty
      sample PyTorch gives NaN; here the inverse of zero is zero and the statements about means
      ask for a point. *)
  Definition row_means m n (K : 'M[R]_(m, n)) : 'cV[R]_m := \col_i (n%:R^-1 * \sum_j K i j).
  Definition total_mean n (K : 'M[R]_n) : R := n%:R^-1 * \sum_i row_means K i 0.

  (** [_implicit_sample] (21-24): kernel between the points of the sample. *)
  Definition center_sample n (K : 'M[R]_n) : 'M[R]_n :=
    \matrix_(i, j) (K i j - row_means K i 0 - row_means K j 0 + total_mean K).
  (** [_implicit_oos] (29-41): between [m] new points and the sample, [Kx], the second argument
      being the sample; between two groups of new points, [Kxy].  [K] is the kernel between the
      points of the sample. *)
  Definition center_oos n (K : 'M[R]_n) m (Kx : 'M[R]_(m, n)) : 'M[R]_(m, n) :=
    \matrix_(i, j) (Kx i j - row_means Kx i 0 - row_means K j 0 + total_mean K).
  Definition center_new n (K : 'M[R]_n) m p (Kx : 'M[R]_(m, n)) (Ky : 'M[R]_(p, n)) (Kxy : 'M[R]_(m, p)) : 'M[R]_(m, p) :=
    \matrix_(i, j) (Kxy i j - row_means Kx i 0 - row_means Ky j 0 + total_mean K).

  (** [_explicit_statistics] (9-10), [_explicit_sample] (17-19) and [_explicit_oos] (26-34): the mean
      of the features of the sample is subtracted. *)
  Definition feature_mean n d (Phi : 'M[R]_(n, d)) : 'rV[R]_d := \row_j (n%:R^-1 * \sum_i Phi i j).
  Definition center_features n d (Phi : 'M[R]_(n, d)) m (phi : 'M[R]_(m, d)) : 'M[R]_(m, d) :=
    \matrix_(i, j) (phi i j - feature_mean Phi 0 j).
End Center.
