(** Distance kernels with the rounding of every operation ([kerch/kernel/distance/*.py],
    [kerch/kernel/statistics/*.py]).  Definitions only.

    A machine rounds the exact result of each operation ([rnd]), has an exponential and a sine of its
    own, and adds up [n] numbers in some order ([plan n]).  Simplified: one and the same order is used
    for all the entries of a matrix; nothing overflows, so that numbers are finite unless the bandwidth
    is zero; constants are rounded once. *)
From Verif Require Import Base RVec KernelR.
Open Scope R_scope.

(** The order in which numbers are added up: which two partial sums are added. *)
Inductive tree : Type := Leaf (i : nat) | Node (a b : tree).
Record machine : Type := Machine { rnd : R -> R; mexp : R -> R; msin : R -> R; plan : nat -> tree }.

(** [torch.sum]. *)
Fixpoint added (rnd : R -> R) (t : tree) (l : vec) : R :=
  match t with
  | Leaf i => nth i l 0
  | Node a b => rnd (added rnd a l + added rnd b l)
  end.
Definition msum (m : machine) (l : vec) : R := match l with [] => 0 | _ => added (rnd m) (plan m (length l)) l end.

Section Rounding.
  Variable m : machine.
  Notation "# x" := (rnd m x) (at level 5, right associativity).

  (** [diff] and [_dist], [_square_dist] (euclidean.py:18-23, manhattan.py:18-23, chebyshev.py:18-23,
      distance_squared.py:47-48; minkowski.py:31-36 raises).  [torch.abs] and [torch.max] are exact. *)
  Definition mdiffs (x y : vec) : vec := zipw (fun a b => # (a - b)) x y.
  Definition msquare_dist (x y : vec) : R := msum m (map (fun d => # (d * d)) (mdiffs x y)).
  Definition mdist (d : distance) (x y : vec) : result R :=
    match d with
    | Euclidean => Ok (# (sqrt (msquare_dist x y)))
    | Manhattan => Ok (msum m (map Rabs (mdiffs x y)))
    | Chebyshev => Ok (lmax (map Rabs (mdiffs x y)))
    | Minkowski _ => Err EAttributeError
    end.

  (** [_sigma_fact], [_dist_sigma] and [_square_dist_sigma] (_distance.py:108-110, distance.py:29-38,
      distance_squared.py:29-40). *)
  Definition mover (sigma d : R) : fl :=
    if Req_EM_T sigma 0 then over sigma d else Fin (# (# (1 / sigma) * d)).
  Definition mf (f : R -> R) (v : fl) : fl := match v with Fin r => Fin (# (f r)) | _ => v end.
  Definition msquare_dist_sigma (d : distance) (sigma : R) (x y : vec) : result fl :=
    match d with
    | Euclidean =>
        Ok (if Req_EM_T sigma 0 then over 0 (msquare_dist x y)
            else Fin (# (# (# (1 / sigma) * # (1 / sigma)) * msquare_dist x y)))
    | _ => bind (mdist d x y) (fun r => Ok (mf (fun r => r * r) (mover sigma r)))
    end.
  Definition mdist_sigma (d : distance) (sigma : R) (x y : vec) : result fl :=
    match d with
    | Euclidean => bind (msquare_dist_sigma Euclidean sigma x y) (fun v => Ok (mf sqrt v))
    | _ => bind (mdist d x y) (fun r => Ok (mover sigma r))
    end.

  (** [_implicit] (epanechnikov.py:37-39, quartic.py:37-39, triweight.py:37-39, tricube.py:37-39,
      triangular.py:37-39, uniform.py:37-39, logistic.py:28-31, silverman.py:34-40,
      exponential.py:69-76).  Powers are products. *)
  Definition cube (d : R) : R := # (# (d * d) * d).
  Definition mprofile (k : kern) (v : fl) : fl :=
    match k with
    | Epanechnikov => window (fun d => # (1 - # (d * d))) v
    | Quartic => window (fun d => let t := # (1 - # (d * d)) in # (t * t)) v
    | Triweight => window (fun d => cube (# (1 - # (d * d)))) v
    | Tricube => window (fun d => cube (# (1 - cube d))) v
    | Triangular => window (fun d => # (1 - d)) v
    | Uniform => match v with Fin d => Fin (if Rle_dec d 1 then 1 else 0) | _ => Fin 0 end
    | Logistic => match v with
                  | Fin d => Fin (# (4 / # (# (mexp m d + mexp m (- d)) + 2)))
                  | PInf => Fin 0
                  | NaN => NaN
                  end
    | Silverman => match v with
                   | Fin d => let t := # (# (sqrt (1 / 2)) * d) in Fin (# (mexp m (- t) * msin m (# (# (PI / 4) + t))))
                   | _ => NaN
                   end
    | Exponential true => match v with Fin d => Fin (mexp m (# (d * # (- (1 / 2))))) | PInf => Fin 0 | NaN => NaN end
    | Exponential false => match v with Fin d => Fin (mexp m (# (d * # (- sqrt (1 / 2))))) | PInf => Fin 0 | NaN => NaN end
    end.
  Definition mkvalue (k : kern) (d : distance) (sigma : R) (x y : vec) : result fl :=
    bind (match k with
          | Exponential true => msquare_dist_sigma d sigma x y
          | _ => mdist_sigma d sigma x y
          end) (fun v => Ok (mprofile k v)).
End Rounding.
