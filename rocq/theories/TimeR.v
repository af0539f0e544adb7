(** Kernels on time points ([kerch/kernel/time/hat.py], [indicator.py]), on histograms
    ([kerch/kernel/vision/*.py]) and the sigmoid kernel
    ([kerch/kernel/generic/sigmoid.py]) over the reals.  Definitions only. *)
From Verif Require Import Base RVec.
Open Scope R_scope.

(** The time of a point: its only coordinate (the constructors refuse other input
    dimensions, hat.py:43, indicator.py:63). *)
Definition time (x : vec) : R := nth 0 x 0.

(** [(x - y).squeeze()] followed by the assertion of two dimensions (hat.py:91-95,
    indicator.py:131-135): with a single point on one side a dimension disappears. *)
Definition two_dims (x y : mat) : bool := negb (Nat.eqb (length x) 1) && negb (Nat.eqb (length y) 1).
Definition guarded (f : vec -> vec -> R) (x y : mat) : result mat :=
  if two_dims x y then Ok (map (fun a => map (f a) y) x) else Err EAssertionError.

(** ** Hat (hat.py:90-100) *)
Definition hat (lag : R) (x y : vec) : R := Rmax (lag + 1 - Rabs (time x - time y)) 0.
Definition hat_implicit (lag : R) (x y : mat) : result mat := guarded (hat lag) x y.

(** ** Indicator *)

(** [_lag], [_gamma], [_link_training], [_lag_trainable]. *)
Record indicator := Indicator { i_lag : R; i_gamma : R; i_linked : bool; i_trainable : bool }.

(** The constructor (indicator.py:54-78). *)
Definition indicator_init (lag : R) (gamma : option R) (trainable : bool) : indicator :=
  match gamma with
  | None => Indicator lag (2 * lag + 1) true trainable
  | Some g => Indicator lag g false trainable
  end.
(** Assigning the lag (97-100), the diagonal value (122-125) or the trainability
    (109-112).  What happens to cached matrices is in [ParamKernel.v]. *)
Inductive indicator_op := SetLag (lag : R) | SetGamma (gamma : R) | SetTrainable (b : bool).
Definition indicator_step (k : indicator) (o : indicator_op) : indicator :=
  match o with
  | SetLag l => Indicator l (i_gamma k) (i_linked k) (i_trainable k)
  | SetGamma g => Indicator (i_lag k) g (i_linked k) (i_trainable k)
  | SetTrainable b => Indicator (i_lag k) (i_gamma k) (i_linked k) b
  end.
Definition indicator_run (k : indicator) (os : list indicator_op) : indicator := fold_left indicator_step os k.

(** [_implicit] (127-140).  When the two parameters are linked and trainable a NumPy
    number is assigned to [_gamma.data] (129), which raises. *)
Definition ind (lag gamma : R) (x y : vec) : R :=
  if Req_EM_T (time x - time y) 0 then gamma
  else if Rle_dec (Rabs (time x - time y)) lag then 1 else 0.
Definition indicator_implicit (k : indicator) (x y : mat) : result mat :=
  if i_linked k && i_trainable k then Err ETypeError
  else guarded (ind (i_lag k) (i_gamma k)) x y.

(** ** Chi-squared kernels (additive_chi_2.py:41-49, skewed_chi_2.py:67-75) *)
Definition chi2 (x y : vec) : R := sum (zipw (fun a b => 2 * (a * b) / Rmax (a + b) EPS) x y).
Definition product (l : vec) : R := fold_right Rmult 1 l.
(** Square roots of negative numbers are NaN. *)
Definition skewed (p : R) (x y : vec) : option R :=
  if forallb (fun a => if Rlt_dec (a + p) 0 then false else true) (x ++ y)
  then Some (product (zipw (fun a b => 2 * (sqrt (a + p) * sqrt (b + p)) / Rmax (a + b + 2 * p) EPS) x y))
  else None.

(** ** Sigmoid (sigmoid.py:50,70-73) *)
Definition sigmoid (t : R) : R := / (1 + exp (- t)).
Definition sigmoid_kernel (a b : R) (x y : vec) : R := sigmoid (a * dot x y + b).
