(** Rebuilding the decomposed matrices from a kernel principal component analysis
    ([kerch/level/single_view/KPCA.py:28-54]).  Definitions only. *)
From Verif Require Import Base.
From mathcomp Require Import all_ssreflect all_algebra.
Set Implicit Arguments. Unset Strict Implicit. Unset Printing Implicit Defensive.
Import GRing.Theory Num.Theory.
Local Open Scope ring_scope.

(** 'primal' and 'dual', the two values [check_representation] lets through ([utils/cast.py:105-110]). *)
Inductive side := PrimalSide | DualSide.

Section Rebuild.
  Variables (R : rcfType) (n d q : nat).

  (** The attributes the three members read.  Neither [hidden] nor [weight] is a property of
      [KPCA] or of one of its bases, and the constructor sets neither of them: the parameters live
      under [primal_param] and [dual_param] ([_View.py:53-66]).  [vals] is a property reading a tensor
      that always exists ([_KPCA.py:24-35]).  Simplification: the widths agree (otherwise the products
      raise). *)
  Record attributes := Attributes { a_hidden : option 'M[R]_(n, q); a_weight : option 'M[R]_(d, q); a_vals : 'rV[R]_q }.

  (** What can be done to a model.  The two private methods that would set the attributes
      ([KPCA.py:56-57], [View.py:209-215]) are called from nowhere. *)
  Inductive kpca_op :=
  | Solve (v : 'rV[R]_q)                 (* _KPCA.py:111-176: update_primal or update_dual, then vals *)
  | SetParameters                        (* _View.py: init_parameters, primal_param, dual_param *)
  | SetValues (v : 'rV[R]_q)             (* _KPCA.py:41-44 *)
  | Evaluate                             (* forward, phi, k, h, loss, the variances, ... *)
  | AssignHidden (H : 'M[R]_(n, q))      (* model.hidden = H, by the user *)
  | AssignWeight (U : 'M[R]_(d, q)).     (* model.weight = U, by the user *)
  Definition init (v : 'rV[R]_q) : attributes := Attributes None None v.
  Definition step (a : attributes) (o : kpca_op) : attributes :=
    match o with
    | Solve v | SetValues v => Attributes (a_hidden a) (a_weight a) v
    | SetParameters | Evaluate => a
    | AssignHidden H => Attributes (Some H) (a_weight a) (a_vals a)
    | AssignWeight U => Attributes (a_hidden a) (Some U) (a_vals a)
    end.
  Definition run (a : attributes) (os : list kpca_op) : attributes := List.fold_left step os a.

  (** Reading an attribute torch.nn.Module does not know. *)
  Definition attribute A (x : option A) : result A := if x is Some v then Ok v else Err EAttributeError.

  (** [K_reconstructed] (KPCA.py:28-33). *)
  Definition K_reconstructed (a : attributes) : result 'M[R]_n :=
    bind (attribute (a_hidden a)) (fun H => Ok (H *m diag_mx (a_vals a) *m H^T)).
  (** [C_reconstructed] (KPCA.py:35-40). *)
  Definition C_reconstructed (a : attributes) : result 'M[R]_d :=
    bind (attribute (a_weight a)) (fun U => Ok (U *m diag_mx (a_vals a) *m U^T)).
  (** [reconstruct] (KPCA.py:43-54): [phi] and [k] are the results of [self.phi(x)] and of [self.k(x)], which
      may raise.  Both are given; only the one of the representation is evaluated. *)
  Definition reconstruct_primal m (a : attributes) (phi : result 'M[R]_(m, d)) : result 'M[R]_(m, d) :=
    bind phi (fun phi => bind (attribute (a_weight a)) (fun U => Ok (phi *m (U *m U^T)))).
  Definition reconstruct_dual m (a : attributes) (k : result 'M[R]_(m, n)) : result 'M[R]_(m, n) :=
    bind k (fun k => bind (attribute (a_hidden a)) (fun H => Ok (k *m (H *m H^T)))).
  Definition reconstruct m (a : attributes) (r : side) (phi : result 'M[R]_(m, d)) (k : result 'M[R]_(m, n)) :
      result ('M[R]_(m, d) + 'M[R]_(m, n)) :=
    match r with
    | PrimalSide => bind (reconstruct_primal a phi) (fun x => Ok (inl x))
    | DualSide => bind (reconstruct_dual a k) (fun x => Ok (inr x))
    end.
End Rebuild.
