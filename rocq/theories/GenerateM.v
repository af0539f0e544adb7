(** New points drawn from a kernel principal component analysis ([kerch/level/_KPCA.py]).
    Definitions only. *)
From mathcomp Require Import all_ssreflect all_algebra.
From Verif Require Import NystromM KpcaM.
Set Implicit Arguments. Unset Strict Implicit. Unset Printing Implicit Defensive.
Import GRing.Theory Num.Theory.
Local Open Scope ring_scope.

Section Generate.
  Variable R : rcfType.
  (** [draw_h] (_KPCA.py:307-317) returns [num] rows of normal numbers, here [Z]; then
      [draw_phi] (319-333) and [draw_k] (335-349), which do not read [posterior]. *)
  Definition draw_phi (posterior : bool) d q (U : 'M[R]_(d, q)) (vals : 'rV[R]_q) num (Z : 'M[R]_(num, q)) : 'M[R]_(num, d) :=
    phi_map U vals Z.
  Definition draw_k (posterior : bool) n q (K : 'M[R]_n) (H : 'M[R]_(n, q)) num (Z : 'M[R]_(num, q)) : 'M[R]_(num, n) :=
    k_map K H Z.
End Generate.
