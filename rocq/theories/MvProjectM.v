(** Predicting the features of the views that are not known
    ([kerch/level/multi_view/MVKPCA.py]).  Definitions only. *)
From mathcomp Require Import all_ssreflect all_algebra.
From Verif Require Import NystromM KpcaM.
Set Implicit Arguments. Unset Strict Implicit. Unset Printing Implicit Defensive.
Import GRing.Theory Num.Theory.
Local Open Scope ring_scope.

Section Project.
  Variable R : rcfType.
  (** [_project_primal] (MVKPCA.py:22-28).  [Wk] and [Wp] are the rows of the weights of the
      known views and of the others, [phi] the features of the known views.  The attribute
      [weight] that [weights_by_name] reads does not exist; the weights are an argument here.
      [torch.linalg.inv] raises on a singular matrix: [None]. *)
  Definition project_primal dk dp q (Wk : 'M[R]_(dk, q)) (Wp : 'M[R]_(dp, q)) (vals : 'rV[R]_q) m (phi : 'M[R]_(m, dk))
    : option 'M[R]_(m, dp) :=
    let D := diag_mx vals - Wp^T *m Wp in
    if D \in unitmx then Some (phi *m Wk *m invmx D *m Wp^T) else None.
  (** [_project_dual] (MVKPCA.py:30-41): [Kp] is the sum of the kernel matrices of the views
      to predict, [k] the sum of the kernel values of the known ones, [H] the dual
      parameter. *)
  Definition project_dual n q (H : 'M[R]_(n, q)) (vals : 'rV[R]_q) (Kp : 'M[R]_n) m (k : 'M[R]_(m, n)) : option 'M[R]_(m, n) :=
    let D := diag_mx vals - H^T *m Kp *m H in
    if D \in unitmx then Some (k *m H *m invmx D *m H^T *m Kp) else None.
End Project.
