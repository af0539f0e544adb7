(** Random features over the reals ([kerch/kernel/random_features/*.py]), for given
    weights.  Definitions only. *)
From Verif Require Import Base RVec.
Open Scope R_scope.

(** ** Activations *)

(** Parameters of the hyperbola features ([_alpha], [_beta], [_gamma], [_delta]). *)
Record hyper := Hyper { h_alpha : R; h_beta : R; h_gamma : R; h_delta : R }.

Definition pos (v : R) : bool := if Rlt_dec 0 v then true else false.
(** The setters (rf_hyperbola.py:32-66): only that of beta looks at the others. *)
Definition set_alpha (h : hyper) (v : R) : result hyper :=
  if pos v then Ok (Hyper v (h_beta h) (h_gamma h) (h_delta h)) else Err EAssertionError.
Definition set_gamma (h : hyper) (v : R) : result hyper :=
  if pos v then Ok (Hyper (h_alpha h) (h_beta h) v (h_delta h)) else Err EAssertionError.
Definition set_delta (h : hyper) (v : R) : result hyper :=
  if pos v then Ok (Hyper (h_alpha h) (h_beta h) (h_gamma h) v) else Err EAssertionError.
Definition set_beta (h : hyper) (v : R) : result hyper :=
  if pos v && pos (v ^ 2 - h_alpha h * h_gamma h)
  then Ok (Hyper (h_alpha h) v (h_gamma h) (h_delta h)) else Err EAssertionError.
(** The constructor assigns alpha, gamma, delta and beta in this order (20-25); the
    attributes do not exist before, zero stands for that. *)
Definition hyper_init (alpha gamma delta beta : R) : result hyper :=
  bind (set_alpha (Hyper 0 0 0 0) alpha) (fun h => bind (set_gamma h gamma) (fun h =>
  bind (set_delta h delta) (fun h => set_beta h beta))).

Inductive act := Arcsinh | LReLU (alpha : R) | Hyperbola (h : hyper) | Fourier.

(** [None] is NaN. *)
Definition sqrt_nan (x : R) : option R := if Rlt_dec x 0 then None else Some (sqrt x).

(** [activation_fn] of one number (rf_arcsinh.py:18-19, rf_lrelu.py:32-33,
    rf_hyperbola.py:74-79). *)
Definition lrelu (alpha x : R) : R := if Rle_dec 0 x then x else alpha * x.
Definition hyperbola (h : hyper) (x : R) : option R :=
  match sqrt_nan ((h_beta h ^ 2 - h_gamma h * h_alpha h) * x ^ 2 + h_gamma h * h_delta h) with
  | Some r => Some (1 / h_gamma h * (r + h_beta h * x))
  | None => None
  end.
Definition activation (a : act) (x : R) : option R :=
  match a with
  | Arcsinh => Some (arcsinh x)
  | LReLU al => Some (lrelu al x)
  | Hyperbola h => hyperbola h x
  | Fourier => None
  end.

(** [activation_fn_inv] (rf_arcsinh.py:21-22, rf_lrelu.py:35-43,
    rf_hyperbola.py:81-86; random_features.py:201-202 for the others). *)
Definition activation_inv (a : act) (y : R) : result (option R) :=
  match a with
  | Arcsinh => Ok (Some (sinh y))
  | LReLU al =>
      if Req_EM_T al 0 then Err EBijection
      else if Rle_dec al 1 then Ok (Some (Rmin (1 / al * y) y)) else Ok (Some (Rmax (1 / al * y) y))
  | Hyperbola h =>
      Ok match sqrt_nan ((h_beta h ^ 2 - h_gamma h * h_alpha h) * y ^ 2 + h_alpha h * h_delta h) with
         | Some r => Some (1 / h_alpha h * (- r + h_beta h * y))
         | None => None
         end
  | Fourier => Err EBijection
  end.

(** ** Feature maps *)

Fixpoint all_some (l : list (option R)) : option vec :=
  match l with
  | [] => Some []
  | Some a :: l' => match all_some l' with Some v => Some (a :: v) | None => None end
  | None :: _ => None
  end.

(** The row of scaled projections [x @ weights.T / sigma]. *)
Definition projections (w : mat) (sigma : R) (x : vec) : vec := map (fun r => dot x r * (1 / sigma)) w.

(** [_explicit] of one point (random_features.py:191-195; rff.py:62-63 for Fourier). *)
Definition rf_features (a : act) (w : mat) (sigma : R) (x : vec) : option vec :=
  let scale v := v * (1 / sqrt (INR (length w))) in
  match a with
  | Fourier => Some (map scale (map cos (projections w sigma x) ++ map sin (projections w sigma x)))
  | _ => match all_some (map (activation a) (projections w sigma x)) with
         | Some v => Some (map scale v)
         | None => None
         end
  end.

Fixpoint all_ok (l : list (result (option R))) : result (option vec) :=
  match l with
  | [] => Ok (Some [])
  | r :: l' =>
      bind r (fun o => bind (all_ok l') (fun v =>
      Ok match o, v with Some a, Some v => Some (a :: v) | _, _ => None end))
  end.

(** [_explicit_preimage] of one point (186-189), for a pseudo-inverse [p] of the
    weights. *)
Definition rf_preimage (a : act) (w p : mat) (sigma : R) (phi : vec) : result (option vec) :=
  bind (all_ok (map (fun v => activation_inv a (v * sqrt (INR (length w)))) phi)) (fun o =>
  Ok match o with
     | Some v => Some (map (fun r => dot v r * sigma) p)
     | None => None
     end).

(** The kernel of two points (207-211). *)
Definition rf_kernel (a : act) (w : mat) (sigma : R) (x y : vec) : option R :=
  match rf_features a w sigma x, rf_features a w sigma y with
  | Some u, Some v => Some (dot u v)
  | _, _ => None
  end.

(** ** Closed forms for infinitely many weights *)

(** rff.py:65-72, called with points divided by the bandwidth
    (random_features.py:212-213). *)
Definition scaled (sigma : R) (x : vec) : vec := map (fun v => 1 / sigma * v) x.
Definition rff_closed (x y : vec) : R := exp (- (1 / 2) * sum (zipw (fun a b => (a - b) * (a - b)) x y)).
(** rf_lrelu.py:45-54; the points are divided by their norms, which gives NaN for the
    origin. *)
Definition lrelu_closed (alpha : R) (x y : vec) : option R :=
  if Req_EM_T (norm x) 0 then None else if Req_EM_T (norm y) 0 then None else
  let u := dot (map (fun v => v / norm x) x) (map (fun v => v / norm y) y) in
  Some (norm x * norm y *
        ((1 + alpha ^ 2) * u - (1 - alpha) ^ 2 / PI * u * acos u + (1 - alpha) ^ 2 / PI * sqrt (1 - u ^ 2)) / 2).
