(** Least-squares support vector machines ([kerch/level/single_view/LSSVM.py]) on matrices
    over a real closed field.  Definitions only. *)
From mathcomp Require Import all_ssreflect all_algebra.
From Verif Require Import KpcaM.
Set Implicit Arguments. Unset Strict Implicit. Unset Printing Implicit Defensive.
Import GRing.Theory Num.Theory.
Local Open Scope ring_scope.

Section Lssvm.
  Variable R : rcfType.

  Definition ones m : 'cV[R]_m := const_mx 1.

  (** [torch.linalg.solve] raises on a singular matrix. *)
  Definition linsolve m q (A : 'M[R]_m) (B : 'M[R]_(m, q)) : option 'M[R]_(m, q) :=
    if A \in unitmx then Some (invmx A *m B) else None.

  (** [_solve_dual] (LSSVM.py:73-101) with the whole sample selected; [K] is the matrix of
      the kernel, without the factor kappa of the view.  The solution is split in dual
      variables and bias. *)
  Definition dual_system n (K : 'M[R]_n) (gamma : R) : 'M[R]_(n + 1) :=
    block_mx (K + gamma *: 1%:M) (ones n) (ones n)^T 0.
  Definition dual_rhs n q (Y : 'M[R]_(n, q)) : 'M[R]_(n + 1, q) := col_mx Y 0.
  Definition solve_dual n q (K : 'M[R]_n) (gamma : R) (Y : 'M[R]_(n, q)) : option ('M[R]_(n, q) * 'rV[R]_q) :=
    omap (fun sol : 'M[R]_(n + 1, q) => (usubmx sol, dsubmx sol)) (linsolve (dual_system K gamma) (dual_rhs Y)).

  (** [_solve_primal] (48-71).  The attribute read at line 50 does not exist (see Ctor.v);
      this is the system the other lines build with the features [Phi] of the sample, the
      kernel's matrix [C] being the second moment. *)
  Definition primal_system n d (Phi : 'M[R]_(n, d)) (gamma : R) : 'M[R]_(d + 1) :=
    block_mx (second_moment Phi + gamma *: 1%:M) (Phi^T *m ones n) ((ones n)^T *m Phi) (const_mx n%:R).
  Definition primal_rhs n d q (Phi : 'M[R]_(n, d)) (Y : 'M[R]_(n, q)) : 'M[R]_(d + 1, q) :=
    col_mx (Phi^T *m Y) ((ones n)^T *m Y).
  Definition solve_primal n d q (Phi : 'M[R]_(n, d)) (gamma : R) (Y : 'M[R]_(n, q)) : option ('M[R]_(d, q) * 'rV[R]_q) :=
    omap (fun sol : 'M[R]_(d + 1, q) => (usubmx sol, dsubmx sol)) (linsolve (primal_system Phi gamma) (primal_rhs Phi Y)).

  (** [_forward] (View.py:231-235, _View.py:324-344): in primal the features carry the
      square root of kappa, in dual the kernel does not carry kappa. *)
  Definition predict_dual n q (kappa : R) (h : 'M[R]_(n, q)) (b : 'rV[R]_q) m (k : 'M[R]_(m, n)) : 'M[R]_(m, q) :=
    k *m h + Num.sqrt kappa *: (ones m *m b).
  Definition predict_primal d q (kappa : R) (w : 'M[R]_(d, q)) (b : 'rV[R]_q) m (phi : 'M[R]_(m, d)) : 'M[R]_(m, q) :=
    (Num.sqrt kappa *: phi) *m w + Num.sqrt kappa *: (ones m *m b).

  (** [loss] (122-158) in primal, on the whole sample and with the weights it is meant to
      read: the squared norm of the weights over the number of points, plus gamma times the
      mean squared error over all entries. *)
  Definition mse n q (A B : 'M[R]_(n, q)) : R := (n * q)%:R^-1 * \sum_i \sum_j (A i j - B i j) ^+ 2.
  Definition lssvm_loss n d q (Phi : 'M[R]_(n, d)) (gamma : R) (Y : 'M[R]_(n, q)) (w : 'M[R]_(d, q)) (b : 'rV[R]_q) : R :=
    n%:R^-1 * (\sum_i \sum_j w i j ^+ 2) + gamma * mse (predict_primal 1 w b Phi) Y.
End Lssvm.
