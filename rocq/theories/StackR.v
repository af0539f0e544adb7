(** Stacked random features over the reals: the inner kernels are random features with a
    bandwidth of one (rf_stacked.py:25-27 gives none), their sample transform is the default one.
    Definitions only.  A tensor that contains NaN is the exception [nan]. *)
From Verif Require Import Base RVec TransformR RandomFeaturesR Stack.
Open Scope R_scope.

Definition nan : exn := EOther 0.
(** An inner kernel: activation, weights and what [torch.linalg.pinv] returns for them. *)
Record rweights := RWeights { rw_act : act; rw_w : mat; rw_p : mat }.

(** [sample_transform=['standardize']]: the mean is removed, then the columns are divided by their
    standard deviation (TransformTree.py:46, MeanCentering.py:9-34, Variance.py:11-23); NaN for a
    single point.  Simplification: a single column is not broadcast. *)
Definition means (s : mat) : vec := colwise mean s.
Definition spreads (s : mat) : vec := colwise std (sub_rows s (means s)).
Definition standardise (s : mat) (x : vec) : result vec :=
  match s with
  | _ :: _ :: _ =>
      if Nat.eqb (length x) (width s)
      then Ok (zipw (fun v t => v / clamp t) (zipw Rminus x (means s)) (spreads s)) else Err ERuntimeError
  | _ => Err nan
  end.
(** Its inverse (Variance.py:25-26, MeanCentering.py:43-44). *)
Definition destandardise (s : mat) (z : vec) : result vec :=
  match s with
  | _ :: _ :: _ =>
      if Nat.eqb (length z) (width s)
      then Ok (zipw Rplus (zipw (fun v t => v * clamp t) z (spreads s)) (means s)) else Err ERuntimeError
  | _ => Err nan
  end.
(** No transform, the default of the stack itself (feature/sample.py:68). *)
Definition plain (s : mat) (x : vec) : result vec := Ok x.

(** [_explicit] and [_explicit_preimage] of an inner kernel (random_features.py:186-195). *)
Definition rfeat (l : rweights) (x : vec) : result vec :=
  if Nat.eqb (length x) (width (rw_w l))
  then match rf_features (rw_act l) (rw_w l) 1 x with Some y => Ok y | None => Err nan end
  else Err ERuntimeError.
Definition rfeat_back (l : rweights) (y : vec) : result vec :=
  if Nat.eqb (length y) (length (rw_w l))
  then bind (rf_preimage (rw_act l) (rw_w l) (rw_p l) 1 y) (fun o => match o with Some x => Ok x | None => Err nan end)
  else Err ERuntimeError.
