(** Specification of the steps on the Stiefel manifold. *)
From mathcomp Require Import all_ssreflect all_algebra.
From Verif Require Import Stiefel.
Set Implicit Arguments. Unset Strict Implicit. Unset Printing Implicit Defensive.
Import GRing.Theory Num.Theory.
Local Open Scope ring_scope.

Section Spec.
  Variable R : rcfType.

  Definition skew n (w : 'M[R]_n) : Prop := w^T = - w.
  (** The Cayley update of [x] along [w]: the solution of [y = x + t/2 w (x + y)]. *)
  Definition cayley_update n m (x : 'M[R]_(n, m)) (w : 'M[R]_n) (t : R) (y : 'M[R]_(n, m)) : Prop :=
    y = x + (t / 2%:R) *: (w *m (x + y)).
  (** The inner products of the rows. *)
  Definition gram m n (p : 'M[R]_(m, n)) : 'M[R]_m := p *m p^T.
  Definition orthogonal_rows m n (p : 'M[R]_(m, n)) : Prop := forall i j, i != j -> gram p i j = 0.
  Definition orthonormal_rows m n (p : 'M[R]_(m, n)) : Prop := gram p = 1%:M.
  (** Orthogonal rows whose norms differ from one by at most [eps]. *)
  Definition nearly_orthonormal m n (p : 'M[R]_(m, n)) : Prop :=
    orthogonal_rows p /\ forall i, (1 - eps R) ^+ 2 <= gram p i i <= 1.
  (** A reduced QR factorisation. *)
  Definition qr_factors m n (x q : 'M[R]_(n, m)) (r : 'M[R]_m) : Prop :=
    x = q *m r /\ q^T *m q = 1%:M /\ forall i j : 'I_m, (j < i)%N -> r i j = 0.
  Definition qr_correct m n (qr : 'M[R]_(n, m) -> 'M[R]_(n, m) * 'M[R]_m) : Prop :=
    forall x, qr_factors x (qr x).1 (qr x).2.

  (** A history of steps in which each follows the exact Cayley update along some skew direction
      with some step size, from the matrix the code starts from. *)
  Inductive exact_history m n (qr : 'M[R]_(n, m) -> 'M[R]_(n, m) * 'M[R]_m) (p0 : 'M[R]_(m, n)) : 'M[R]_(m, n) -> Prop :=
  | exact_none : exact_history qr p0 p0
  | exact_step p retract w t y : exact_history qr p0 p -> skew w ->
      cayley_update (start qr retract p)^T w t y -> exact_history qr p0 y^T.

  (** The steps of the first optimiser on a parameter, each with the outcome of the draw and the
      gradient. *)
  Definition run_sgd m n (qr : 'M[R]_(n, m) -> 'M[R]_(n, m) * 'M[R]_m) (o : sgd_options R)
    (s : 'M[R]_(m, n) * option 'M[R]_(n, m)) (gs : seq (bool * 'M[R]_(m, n))) : 'M[R]_(m, n) * option 'M[R]_(n, m) :=
    foldl (fun s rg => sgd_stiefel o qr rg.1 s rg.2) s gs.
  (** No momentum has been stored. *)
  Definition fresh m n (b : option 'M[R]_(n, m)) : Prop := odflt 0 b = 0.
  Definition same_rate (o o' : sgd_options R) : Prop := o_lr o = o_lr o'.
End Spec.
