(** Covariance and correlation of the features ([kerch/kernel/kernel.py:266-345]) on
    real matrices, on top of the tree of transforms.  Definitions only. *)
From Verif Require Import Base Beautify TransformTree RVec TransformR.
Open Scope R_scope.

(** [scale * phi.T @ phi] (kernel.py:280-282). *)
Definition second_moment (phi : mat) : mat :=
  map (map (fun v => 1 / INR (length phi) * v)) (gram (transpose phi) (transpose phi)).
Definition real_c (v : val) : result val :=
  match v with
  | VMat [] => Err EDivisionByZero
  | VMat phi => Ok (VMat (second_moment phi))
  | _ => Ok VNaN
  end.

(** The list of [cov] (kernel.py:323-330).  The default list holds classes, which differ
    from the string, so that the name is always appended; it is simplified there and once
    more by [phi] (kernel.py:208). *)
Definition cov_list (k : kclass) (default : list cls) : result (list cls) :=
  bind (fst (simplify k (map RCls default ++ [RName "center"]))) (fun cs => fst (simplify k (map RCls cs))).
Definition cov {D : Type} (num : numerics val D) (k : kclass) (default : list cls) (x : option nat) : M val :=
  match cov_list k default with
  | Ok cs => mbind (apply num true x None (Some (map RCls cs))) (fun v => mret (real_c v))
  | Err e => mret (Err e)
  end.

(** [corr] (kernel.py:342-345).  A division by zero gives NaN. *)
Definition correlation (c : mat) : val :=
  let s := map sqrt (diag c) in
  if existsb (fun v => if Req_EM_T v 0 then true else false) (diag c) then VNaN
  else VMat (zipw (fun r a => zipw (fun v b => v / (a * b)) r s) c s).
Definition real_corr (v : val) : val := match v with VMat c => correlation c | _ => VNaN end.
Definition corr {D : Type} (num : numerics val D) (k : kclass) (default : list cls) (x : option nat) : M val :=
  mbind (cov num k default x) (fun c => mret (Ok (real_corr c))).

(** The cosine kernel, the only explicit class with a required transform
    (generic/cosine.py:31-33), and the other explicit ones. *)
Definition cosine_class : kclass := KClass (Some (RCls Sphere)) false.
Definition plain_class : kclass := KClass None false.
