(** Distances and distance kernels on real vectors
    ([kerch/kernel/distance/*.py], [kerch/kernel/statistics/*.py],
    [kerch/kernel/generic/rbf.py], [laplacian.py]).  Definitions only. *)
From Verif Require Import Base Beautify RVec.
Open Scope R_scope.

(** A number, plus infinity or not a number.  Distances are not negative, so minus
    infinity does not show up in results. *)
Inductive fl : Type := Fin (r : R) | PInf | NaN.

(** ** Distances *)

(** The classes offered by name (select_distance.py:14-40). *)
Inductive distance : Type := Euclidean | Chebyshev | Manhattan | Minkowski (order : R).

(** [SelectDistance.__new__] with a string, already in lower case (15-33); the
    Wasserstein class raises in its constructor (wasserstein.py:13-15) and the
    Minkowski class wants an order (minkowski.py:17-20). *)
Definition select_distance (name : string) (order : option R) : result distance :=
  if String.eqb name "euclidean" then Ok Euclidean
  else if String.eqb name "chebyshev" then Ok Chebyshev
  else if String.eqb name "manhattan" then Ok Manhattan
  else if String.eqb name "wasserstein" then Err ENotImplemented
  else if String.eqb name "minkowski" then
    match order with Some p => Ok (Minkowski p) | None => Err EValueError end
  else Err EValueError.

(** [_dist] of two points (chebyshev.py:18-23, manhattan.py:18-23,
    euclidean.py:18-23 with distance_squared.py:47-48, minkowski.py:31-36, whose
    misspelled attribute raises). *)
Definition square_dist (x y : vec) : R := sum (zipw (fun a b => (a - b) * (a - b)) x y).
Definition dist (d : distance) (x y : vec) : result R :=
  match d with
  | Euclidean => Ok (sqrt (square_dist x y))
  | Manhattan => Ok (sum (zipw (fun a b => Rabs (a - b)) x y))
  | Chebyshev => Ok (lmax (zipw (fun a b => Rabs (a - b)) x y))
  | Minkowski _ => Err EAttributeError
  end.

(** ** Scaling by the bandwidth *)

(** [1 / sigma] times a number that is not negative (_distance.py:108-110). *)
Definition over (sigma d : R) : fl :=
  if Req_EM_T sigma 0 then (if Req_EM_T d 0 then NaN else PInf) else Fin (1 / sigma * d).
Definition fl_sqrt (v : fl) : fl := match v with Fin r => Fin (sqrt r) | _ => v end.
Definition fl_sqr (v : fl) : fl := match v with Fin r => Fin (r * r) | _ => v end.

(** [_dist_sigma] and [_square_dist_sigma] (distance.py:29-38,
    distance_squared.py:29-40).  Whether the value comes from the cache is modelled in
    [Kernel.v]. *)
Definition square_dist_sigma (d : distance) (sigma : R) (x y : vec) : result fl :=
  match d with
  | Euclidean =>
      Ok (if Req_EM_T sigma 0 then over 0 (square_dist x y)
          else Fin ((1 / sigma) * (1 / sigma) * square_dist x y))
  | _ => bind (dist d x y) (fun r => Ok (fl_sqr (over sigma r)))
  end.
Definition dist_sigma (d : distance) (sigma : R) (x y : vec) : result fl :=
  match d with
  | Euclidean => bind (square_dist_sigma Euclidean sigma x y) (fun v => Ok (fl_sqrt v))
  | _ => bind (dist d x y) (fun r => Ok (over sigma r))
  end.

(** ** Kernels *)

(** The kernels of a distance.  RBF and Laplacian are the exponential kernel with the
    Euclidean distance (rbf.py:43-62, laplacian.py:33-55). *)
Inductive kern : Type :=
| Epanechnikov | Quartic | Triweight | Tricube | Triangular | Uniform | Logistic | Silverman
| Exponential (squared : bool).

(** [(d <= 1) * f(d)]; infinity gives zero times minus infinity. *)
Definition window (f : R -> R) (v : fl) : fl :=
  match v with
  | Fin d => Fin (if Rle_dec d 1 then f d else 0)
  | _ => NaN
  end.

(** [_implicit] as a function of the scaled distance (epanechnikov.py:37-39,
    quartic.py:37-39, triweight.py:37-39, tricube.py:37-39, triangular.py:37-39,
    uniform.py:37-39, logistic.py:27-30, silverman.py:34-40, exponential.py:69-76).  A
    comparison with NaN is false, so the uniform kernel of NaN is zero. *)
Definition profile (k : kern) (v : fl) : fl :=
  match k with
  | Epanechnikov => window (fun d => 1 - d ^ 2) v
  | Quartic => window (fun d => (1 - d ^ 2) ^ 2) v
  | Triweight => window (fun d => (1 - d ^ 2) ^ 3) v
  | Tricube => window (fun d => (1 - d ^ 3) ^ 3) v
  | Triangular => window (fun d => 1 - d) v
  | Uniform => match v with Fin d => Fin (if Rle_dec d 1 then 1 else 0) | _ => Fin 0 end
  | Logistic => match v with
                | Fin d => Fin (4 / (exp d + exp (- d) + 2))
                | PInf => Fin 0
                | NaN => NaN
                end
  | Silverman => match v with
                 | Fin d => Fin (exp (- (sqrt (1 / 2) * d)) * sin (PI / 4 + sqrt (1 / 2) * d))
                 | _ => NaN
                 end
  | Exponential true => match v with Fin d => Fin (exp (d * - (1 / 2))) | PInf => Fin 0 | NaN => NaN end
  | Exponential false => match v with Fin d => Fin (exp (d * - sqrt (1 / 2))) | PInf => Fin 0 | NaN => NaN end
  end.

(** One entry of [_implicit(x, y)]. *)
Definition kvalue (k : kern) (d : distance) (sigma : R) (x y : vec) : result fl :=
  bind (match k with
        | Exponential true => square_dist_sigma d sigma x y
        | _ => dist_sigma d sigma x y
        end) (fun v => Ok (profile k v)).
Definition rbf (sigma : R) (x y : vec) : result fl := kvalue (Exponential true) Euclidean sigma x y.
Definition laplacian (sigma : R) (x y : vec) : result fl := kvalue (Exponential false) Euclidean sigma x y.

(** [_naturally_normalized] (same files; logistic has the default, kernel.py:76-78). *)
Definition naturally_normalized (k : kern) : bool := match k with Logistic => false | _ => true end.
(** What [normalized] says when the default transform is the last class of a list
    (kernel.py:89-96). *)
Definition announced (k : kern) (default : list cls) : bool :=
  match rev default with
  | [] => naturally_normalized k
  | Sphere :: _ => true
  | _ => false
  end.
Definition kern_class (k : kern) : kclass := KClass None (naturally_normalized k).

(** ** The bandwidth heuristic *)

(** Ascending sort, and [torch.median], which returns the lower of two middle values. *)
Fixpoint insert (a : R) (l : vec) : vec :=
  match l with
  | [] => [a]
  | b :: l' => if Rle_dec a b then a :: l else b :: insert a l'
  end.
Fixpoint sort (l : vec) : vec := match l with [] => [] | a :: l' => insert a (sort l') end.
Definition median (l : vec) : R := nth ((length l - 1) / 2) (sort l) 0.

(** All pairwise values, row after row. *)
Definition pairs (f : vec -> vec -> R) (s : mat) : vec := flat_map (fun a => map (f a) s) s.

(** [_determine_sigma] (distance.py:19-27, distance_squared.py:19-27). *)
Definition heuristic (d : distance) (s : mat) : result R :=
  match d with
  | Euclidean => Ok (1 / 2 * sqrt (median (pairs square_dist s)))
  | Manhattan => Ok (1 / 2 * median (pairs (fun a b => sum (zipw (fun u v => Rabs (u - v)) a b)) s))
  | Chebyshev => Ok (1 / 2 * median (pairs (fun a b => lmax (zipw (fun u v => Rabs (u - v)) a b)) s))
  | Minkowski _ => Err EAttributeError
  end.
