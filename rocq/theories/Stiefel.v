(** The optimiser for parameters on the Stiefel manifold
    ([kerch/opt/stiefel/stiefel_optimizer.py], [gutils.py], [utils.py]), on exact matrices over a
    real closed field.  Definitions only.

    A parameter with more than two dimensions is first viewed as a matrix; here it is a matrix
    with [m] rows and [n] columns.  Not modelled: devices. *)
From mathcomp Require Import all_ssreflect all_algebra.
Set Implicit Arguments. Unset Strict Implicit. Unset Printing Implicit Defensive.
Import GRing.Theory Num.Theory.
Local Open Scope ring_scope.

Section Stiefel.
  Variable R : rcfType.

  (** [episilon] (stiefel_optimizer.py:21), also the default of [unit] (gutils.py:7) *)
  Definition eps : R := (10%:R ^+ 8)^-1.

  (** [norm] and [unit] (gutils.py:3-9) *)
  Definition row_norm m n (p : 'M[R]_(m, n)) (i : 'I_m) : R := Num.sqrt (\sum_j p i j ^+ 2).
  Definition unit_rows m n (p : 'M[R]_(m, n)) : 'M[R]_(m, n) := \matrix_(i, j) (p i j / (row_norm p i + eps)).

  (** [qr_retraction] (gutils.py:56-65); [qr] is the factorisation of [torch.linalg.qr]. *)
  Definition qr_retraction m n (qr : 'M[R]_(n, m) -> 'M[R]_(n, m) * 'M[R]_m) (x : 'M[R]_(m, n)) : 'M[R]_(m, n) :=
    let: (q, r) := qr x^T in (\matrix_(i, j) (q i j * Num.sg (r j j)))^T.

  (** [matrix_norm_one] (utils.py:83-87): the largest sum of absolute values of a column. *)
  Definition norm_one n m (w : 'M[R]_(n, m)) : R := \big[Num.max/0]_j \sum_i `|w i j|.

  (** The direction (stiefel_optimizer.py:111-115, 246-250 before the division). *)
  Definition direction m n (v : 'M[R]_(n, m)) (x : 'M[R]_(m, n)) : 'M[R]_n :=
    let mx := v *m x in
    let xmx := x *m mx in
    let xxmx := x^T *m xmx in
    let w_hat := mx - 2%:R^-1 *: xxmx in
    w_hat - w_hat^T.
  (** The step size (116-117, 252-253). *)
  Definition step_size n (w : 'M[R]_n) (lr : R) : R := Num.min (2%:R^-1 * 2%:R / (norm_one w + eps)) lr.

  (** [Cayley_loop] (gutils.py:67-73) *)
  Definition cayley_iter n m (x : 'M[R]_(n, m)) (w : 'M[R]_n) (t : R) (y : 'M[R]_(n, m)) : 'M[R]_(n, m) :=
    x + t *: (w *m (2%:R^-1 *: (x + y))).
  Definition cayley_loop n m (x : 'M[R]_(n, m)) (w : 'M[R]_n) (tan : 'M[R]_(n, m)) (t : R) : 'M[R]_(m, n) :=
    (iter 20 (cayley_iter x w t) (x + t *: tan))^T.

  (** The matrix a step starts from (87-96, 215-219); [retract] is set when the random number is
      one. *)
  Definition start m n (qr : 'M[R]_(n, m) -> 'M[R]_(n, m) * 'M[R]_m) (retract : bool) (p : 'M[R]_(m, n)) : 'M[R]_(m, n) :=
    if retract then qr_retraction qr (unit_rows p) else unit_rows p.

  (** *** [SGDG] *)
  Record sgd_options := SgdOptions { o_lr : R; o_momentum : R; o_weight_decay : R; o_dampening : R; o_nesterov : bool }.

  (** A step for a group marked as Stiefel, when there are no more rows than columns (89-123).
      The buffer is created full of zeros (104-105); [V = momentum * V - g.t()] (110) gives a new
      matrix the name [V], and [V.copy_(V_new)] (123) writes into that one. *)
  Definition sgd_stiefel m n (o : sgd_options) qr retract (s : 'M[R]_(m, n) * option 'M[R]_(n, m)) (g : 'M[R]_(m, n))
    : 'M[R]_(m, n) * option 'M[R]_(n, m) :=
    let: (p, buffer) := s in
    let x := start qr retract p in
    let b := odflt 0 buffer in
    let v := o_momentum o *: b - g^T in
    let w := direction v x in
    let alpha := step_size w (o_lr o) in
    (cayley_loop x^T w v alpha, Some b).

  (** Otherwise (125-142); the third component is the gradient afterwards, which is changed in
      place by the weight decay. *)
  Definition sgd_plain m n (o : sgd_options) (s : 'M[R]_(m, n) * option 'M[R]_(m, n)) (g : 'M[R]_(m, n))
    : 'M[R]_(m, n) * option 'M[R]_(m, n) * 'M[R]_(m, n) :=
    let: (p, buffer) := s in
    let d := if o_weight_decay o != 0 then g + o_weight_decay o *: p else g in
    let buffer' := if o_momentum o != 0
                   then Some (if buffer is Some b then o_momentum o *: b + (1 - o_dampening o) *: d else d)
                   else buffer in
    let d' := if o_momentum o != 0
              then (if o_nesterov o then d + o_momentum o *: odflt 0 buffer' else odflt 0 buffer')
              else d in
    (p - o_lr o *: d', buffer', d).

  (** *** [AdamG]: the state of a parameter and a step (217-263) *)
  Record adam_options := AdamOptions { a_lr : R; a_beta1 : R; a_beta2 : R; a_epsilon : R }.
  Record adam_state m n := AdamState { a_m : 'M[R]_(n, m); a_v : R; a_power1 : R; a_power2 : R }.
  Definition frobenius2 m n (g : 'M[R]_(m, n)) : R := \sum_i \sum_j g i j ^+ 2.
  Definition adam_init m n (o : adam_options) : adam_state m n := AdamState 0 0 (a_beta1 o) (a_beta2 o).
  Definition adam_first m n (o : adam_options) (s : adam_state m n) (g : 'M[R]_(m, n)) : 'M[R]_(n, m) :=
    a_beta1 o *: a_m s + (1 - a_beta1 o) *: g^T.
  Definition adam_second m n (o : adam_options) (s : adam_state m n) (g : 'M[R]_(m, n)) : R :=
    a_beta2 o * a_v s + (1 - a_beta2 o) * frobenius2 g.
  Definition adam_scale m n (o : adam_options) (s : adam_state m n) (g : 'M[R]_(m, n)) : R :=
    Num.sqrt (adam_second o s g / (1 - a_power2 s) + a_epsilon o).
  Definition adam_direction m n (o : adam_options) (x : 'M[R]_(m, n)) (s : adam_state m n) (g : 'M[R]_(m, n)) : 'M[R]_n :=
    (adam_scale o s g)^-1 *: direction ((1 - a_power1 s)^-1 *: adam_first o s g) x.
  Definition adam_stiefel m n (o : adam_options) qr retract (ps : 'M[R]_(m, n) * option (adam_state m n)) (g : 'M[R]_(m, n))
    : 'M[R]_(m, n) * option (adam_state m n) :=
    let: (p, os) := ps in
    let x := start qr retract p in
    let s := odflt (adam_init m n o) os in
    let w := adam_direction o x s g in
    let alpha := step_size w (a_lr o) in
    (cayley_loop x^T w (adam_first o s g) (- alpha),
     Some (AdamState (adam_scale o s g * (1 - a_power1 s) *: (w *m x^T)) (adam_second o s g)
                     (a_power1 s * a_beta1 o) (a_power2 s * a_beta2 o))).
End Stiefel.
