(** Vocabulary for the properties of distances and distance kernels. *)
From Verif Require Import Base RVec KernelR.
Open Scope R_scope.

(** The distances that can be evaluated. *)
Definition offered (d : distance) : Prop := match d with Minkowski _ => False | _ => True end.

(** Kernels that decrease with the distance. *)
Definition similarity (k : kern) : Prop := k <> Silverman.

(** Kernels of compact support. *)
Definition compact (k : kern) : Prop :=
  match k with
  | Epanechnikov | Quartic | Triweight | Tricube | Triangular | Uniform => True
  | _ => False
  end.

(** A function of two points is positive semi-definite on a domain: every matrix of
    its values between points of the domain is. *)
Definition matrix_of {X : Type} (f : X -> X -> R) (s : list X) : mat := map (fun a => map (f a) s) s.
Definition quadratic (k : mat) (c : vec) : R := dot c (map (dot c) k).
Definition psd_on {X : Type} (dom : X -> Prop) (f : X -> X -> R) : Prop :=
  forall (s : list X) (c : vec), Forall dom s -> length c = length s -> 0 <= quadratic (matrix_of f s) c.

(** The formulas of the class documentations: distances between two points and kernels
    as functions of the distance [r] and the bandwidth [sigma]
    (statistics/*.py, generic/rbf.py:18-22, laplacian.py:18-22). *)
Inductive is_distance : distance -> vec -> vec -> R -> Prop :=
| DocEuclidean x y r : 0 <= r -> r ^ 2 = sum (zipw (fun a b => (a - b) ^ 2) x y) -> is_distance Euclidean x y r
| DocManhattan x y : is_distance Manhattan x y (sum (zipw (fun a b => Rabs (a - b)) x y))
| DocChebyshev x y r : (forall i, (i < length x)%nat -> Rabs (nth i x 0 - nth i y 0) <= r) ->
    (exists i, (i < length x)%nat /\ r = Rabs (nth i x 0 - nth i y 0)) -> is_distance Chebyshev x y r.

Definition documented_kernel (k : kern) (sigma r : R) : R :=
  let cut v := if Rle_dec (r / sigma) 1 then v else 0 in
  match k with
  | Uniform => cut 1
  | Triangular => cut (1 - r / sigma)
  | Epanechnikov => cut (1 - (r / sigma) ^ 2)
  | Quartic => cut ((1 - (r / sigma) ^ 2) ^ 2)
  | Triweight => cut ((1 - (r / sigma) ^ 2) ^ 3)
  | Tricube => cut ((1 - (Rabs r / sigma) ^ 3) ^ 3)
  | Logistic => 4 / (exp (r / sigma) + 2 + exp (- r / sigma))
  | Silverman => exp (- (r / (sqrt 2 * sigma))) * sin (r / (sqrt 2 * sigma) + PI / 4)
  | Exponential true => exp (- (r ^ 2 / (2 * sigma ^ 2)))
  | Exponential false => exp (- (r / (sqrt 2 * sigma)))
  end.
