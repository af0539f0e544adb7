(** Property theorem C173: the sample of a Nystrom kernel. *)
From mathcomp Require Import all_ssreflect all_algebra.
From Verif Require Import NystromM MatrixSpec NystromMProofs LandmarkSpec LandmarkProofs LandmarkExamples.
Set Implicit Arguments. Unset Strict Implicit. Unset Printing Implicit Defensive.
Import GRing.Theory Num.Theory.
Local Open Scope ring_scope.

(** * C173 *)

(** [kf] is the base kernel.  The points [x] are among the points [y]; with [y] only zero
    eigenvalues are left out, with [x] the threshold and the number of components are any.  On any
    points [z] the Nystrom kernel with [y] is at least the one with [x]. *)
Theorem C173_more_points :
  forall (R : rcfType) (X : Type) (kf : X -> X -> R), positive_kernel kf ->
  forall n n' (x : 'I_n -> X) (y : 'I_n' -> X) (s : 'rV[R]_n) (V : 'M[R]_n) (s' : 'rV[R]_n') (V' : 'M[R]_n')
         (eps eps' : R) (k k' : nat) (Hk : (k <= n)%N) (Hk' : (k' <= n')%N), among x y ->
    eigendecomposition (gram kf x x) s V -> eigendecomposition (gram kf y y) s' V' ->
    0 < eps -> 0 < eps' -> (forall j : 'I_n', (j < n' - k')%N || (s' 0 j < eps') -> s' 0 j = 0) ->
    forall m (z : 'I_m -> X),
    psd (nystrom_oos eps' Hk' s' V' (gram kf z y) *m (nystrom_oos eps' Hk' s' V' (gram kf z y))^T -
         nystrom_oos eps Hk s V (gram kf z x) *m (nystrom_oos eps Hk s V (gram kf z x))^T).
Proof. exact more_landmarks. Qed.
Print Assumptions C173_more_points.

(** So the error at a point, which is never negative, does not grow. *)
Theorem C173_error :
  forall (R : rcfType) (X : Type) (kf : X -> X -> R), positive_kernel kf ->
  forall n n' (x : 'I_n -> X) (y : 'I_n' -> X) (s : 'rV[R]_n) (V : 'M[R]_n) (s' : 'rV[R]_n') (V' : 'M[R]_n')
         (eps eps' : R) (k k' : nat) (Hk : (k <= n)%N) (Hk' : (k' <= n')%N), among x y ->
    eigendecomposition (gram kf x x) s V -> eigendecomposition (gram kf y y) s' V' ->
    0 < eps -> 0 < eps' -> (forall j : 'I_n', (j < n' - k')%N || (s' 0 j < eps') -> s' 0 j = 0) ->
    forall m (z : 'I_m -> X) i,
    0 <= kf (z i) (z i) - (nystrom_oos eps' Hk' s' V' (gram kf z y) *m (nystrom_oos eps' Hk' s' V' (gram kf z y))^T) i i
      <= kf (z i) (z i) - (nystrom_oos eps Hk s V (gram kf z x) *m (nystrom_oos eps Hk s V (gram kf z x))^T) i i.
Proof. exact landmark_error. Qed.
Print Assumptions C173_error.

(** Two samples made of the same points, in any order and with any repetitions, give the same
    Nystrom kernel, if only zero eigenvalues are left out. *)
Theorem C173_same_points :
  forall (R : rcfType) (X : Type) (kf : X -> X -> R), positive_kernel kf ->
  forall n n' (x : 'I_n -> X) (y : 'I_n' -> X) (s : 'rV[R]_n) (V : 'M[R]_n) (s' : 'rV[R]_n') (V' : 'M[R]_n')
         (eps eps' : R) (k k' : nat) (Hk : (k <= n)%N) (Hk' : (k' <= n')%N), among x y -> among y x ->
    eigendecomposition (gram kf x x) s V -> eigendecomposition (gram kf y y) s' V' ->
    0 < eps -> 0 < eps' -> (forall j : 'I_n, (j < n - k)%N || (s 0 j < eps) -> s 0 j = 0) ->
    (forall j : 'I_n', (j < n' - k')%N || (s' 0 j < eps') -> s' 0 j = 0) ->
    forall m (z : 'I_m -> X),
    nystrom_oos eps' Hk' s' V' (gram kf z y) *m (nystrom_oos eps' Hk' s' V' (gram kf z y))^T =
    nystrom_oos eps Hk s V (gram kf z x) *m (nystrom_oos eps Hk s V (gram kf z x))^T.
Proof. exact same_landmarks. Qed.
Print Assumptions C173_same_points.

(** If a positive eigenvalue is left out a larger sample may be worse: two points with a single
    component lose the one that the smaller sample reproduced. *)
Theorem C173_all_components_needed :
  forall R : rcfType, exists (kf : bool -> bool -> R) (x : 'I_1 -> bool) (y : 'I_2 -> bool) (s' : 'rV[R]_2),
    positive_kernel kf /\ among x y /\
    eigendecomposition (gram kf x x) (const_mx 1) 1%:M /\ eigendecomposition (gram kf y y) s' 1%:M /\
    let phi := nystrom_oos (1 / 2%:R) (leqnn 1) (const_mx 1) 1%:M (gram kf x x) in
    let phi' := nystrom_oos (1 / 2%:R) (leqnSn 1) s' 1%:M (gram kf x y) in
    (phi *m phi^T) 0 0 = kf (x 0) (x 0) /\ (phi' *m phi'^T) 0 0 = 0 /\ kf (x 0) (x 0) = 1.
Proof.
  move=> R. exists (two_kernel R), first_only, two_points, (two_values R).
  split; first exact: two_positive. split; first exact: first_among.
  split; first exact: first_decomposition. split; first exact: two_decomposition.
  split; first exact: (value_first R false). split; [exact: (value_top R false) | by []].
Qed.
Print Assumptions C173_all_components_needed.

Example C173_nontrivial (R : rcfType) :
  positive_kernel (two_kernel R) /\ among first_only two_points /\
  eigendecomposition (gram (two_kernel R) first_only first_only) (const_mx 1) 1%:M /\
  eigendecomposition (gram (two_kernel R) two_points two_points) (two_values R) 1%:M /\
  (forall j : 'I_2, (j < 2 - 2)%N || (two_values R 0 j < 1 / 2%:R) -> two_values R 0 j = 0) /\
  (features_first R true *m (features_first R true)^T) 0 0 = 0 /\
  (features_two R (leqnn 2) true *m (features_two R (leqnn 2) true)^T) 0 0 = 4%:R.
Proof.
  split; first exact: two_positive. split; first exact: first_among.
  split; first exact: first_decomposition. split; first exact: two_decomposition.
  split; first by move=> j H; case/negP: (two_all R j). split; [exact: (value_first R true) | exact: (value_two R true)].
Qed.
