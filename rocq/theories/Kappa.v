(** The scale [kappa] of a single-view level ([kerch/level/single_view/View.py]) on matrices over
    a real closed field.  Definitions only. *)
From Verif Require Import Base.
From mathcomp Require Import all_ssreflect all_algebra.
Set Implicit Arguments. Unset Strict Implicit. Unset Printing Implicit Defensive.
Import GRing.Theory Num.Theory.
Local Open Scope ring_scope.

Section Kappa.
  Variable R : rcfType.

  (** [__init__] (59-60): [math.sqrt] raises on a negative number. *)
  Record scale : Type := Scale { sc_kappa : R; sc_sqrt : R }.
  Definition create_scale (kappa : R) : result scale :=
    if kappa < 0 then Err EValueError else Ok (Scale kappa (Num.sqrt kappa)).
  (** The setter (121-123). *)
  Definition set_kappa (s : scale) (v : R) : scale := Scale v (sc_sqrt s).
  Definition set_kappas (s : scale) (vs : seq R) : scale := foldl set_kappa s vs.

  (** [phi] (221-222), [k] (224-225), [K] (227-229), from the features [phi] and the kernel
      matrix [k] of the kernel. *)
  Definition level_phi m d (s : scale) (phi : 'M[R]_(m, d)) : 'M[R]_(m, d) := sc_sqrt s *: phi.
  Definition level_k m n (s : scale) (k : 'M[R]_(m, n)) : 'M[R]_(m, n) := sc_kappa s *: k.

  (** [phiw] (_View.py:324-344): in dual the kernel is that of the kernel, not of the level.
      [_forward] (231-235), with the bias when it is required. *)
  Definition bias_rows m q (s : scale) (b : option 'rV[R]_q) : 'M[R]_(m, q) :=
    if b is Some b then \matrix_(i, j) (sc_sqrt s * b 0 j) else 0.
  Definition level_primal m d q (s : scale) (w : 'M[R]_(d, q)) b (phi : 'M[R]_(m, d)) : 'M[R]_(m, q) :=
    level_phi s phi *m w + bias_rows m s b.
  Definition level_dual m n q (s : scale) (h : 'M[R]_(n, q)) b (k : 'M[R]_(m, n)) : 'M[R]_(m, q) :=
    k *m h + bias_rows m s b.

  (** [Phi] and [C] of a level are those of [_BaseKernel] (kernel/_base_kernel.py:269-287), which
      read [_phi] and [_C] of the kernel (kernel/kernel.py:148-171) and not [phi] of the level;
      [c] (kernel.py:266-282) reads [phi] of the level; [phi()] is [phi] on the sample.  [Phi]
      below are the features of the kernel on its sample. *)
  Definition level_Phi n d (s : scale) (Phi : 'M[R]_(n, d)) : 'M[R]_(n, d) := Phi.
  Definition level_C n d (s : scale) (Phi : 'M[R]_(n, d)) : 'M[R]_d :=
    n%:R^-1 *: ((level_Phi s Phi)^T *m level_Phi s Phi).
  Definition level_K n d (s : scale) (Phi : 'M[R]_(n, d)) : 'M[R]_n := level_k s (Phi *m Phi^T).
  Definition level_c m d (s : scale) (phi : 'M[R]_(m, d)) : 'M[R]_d :=
    m%:R^-1 *: ((level_phi s phi)^T *m level_phi s phi).

  (** The weights of [_update_primal_from_dual] (208-214), read as the weights that the method
      means to set: it assigns them to an attribute [weight] that a prediction does not read. *)
  Definition primal_from_dual n d q (s : scale) (Phi : 'M[R]_(n, d)) (h : 'M[R]_(n, q)) : 'M[R]_(d, q) :=
    (level_Phi s Phi)^T *m h.
End Kappa.
