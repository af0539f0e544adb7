(** Instances showing that the hypotheses of the theorems on the Stiefel manifold can be met. *)
From mathcomp Require Import all_ssreflect all_algebra.
From Verif Require Import Stiefel StiefelSpec StiefelProofs StiefelHistory.
Set Implicit Arguments. Unset Strict Implicit. Unset Printing Implicit Defensive.
Import GRing.Theory Num.Theory.
Local Open Scope ring_scope.

Section Examples.
  Variable R : rcfType.

  (** One row: the first vector of the basis; a gradient along the second one. *)
  Definition ex_row : 'M[R]_(1, 2) := \row_j (j == 0)%:R.
  Definition ex_move : 'M[R]_(2, 1) := \col_i (i == 1)%:R.
  Lemma ex_row_orthonormal : orthonormal_rows ex_row.
  Proof.
    apply/matrixP => i j; rewrite !ord1 !mxE !big_ord_recl big_ord0 !mxE /=.
    by rewrite mulr1 mulr0 !addr0.
  Qed.
  Lemma ex_product : ex_row *m ex_move = 0.
  Proof.
    apply/matrixP => i j; rewrite !ord1 !mxE !big_ord_recl big_ord0 !mxE /=.
    by rewrite mulr0 mul0r !addr0.
  Qed.
  Lemma ex_direction : direction ex_move ex_row 1 0 = 1.
  Proof.
    rewrite /direction [ex_row *m (_ *m _)]mulmxA ex_product mul0mx mulmx0 scaler0 subr0 !mxE.
    rewrite !big_ord1 !mxE /=. by rewrite mulr1 mul0r subr0.
  Qed.
  Lemma ex_descent : \tr (ex_move^T *m (direction ex_move ex_row *m ex_row^T)) = 1.
  Proof.
    have G : gram ex_row = 1%:M by exact: ex_row_orthonormal.
    have Z : (0 : 'M[R]_1)^T = 0 by apply/matrixP => i j; rewrite !mxE.
    rewrite (velocity G) ex_product Z !mulmx0 !scaler0 !subr0 scale1r.
    rewrite trace_sq !big_ord_recl !big_ord0 !mxE /=. by rewrite expr0n expr1n /= !addr0 add0r.
  Qed.

  (** A factorisation of matrices with one column. *)
  Definition ex_qr n (x : 'M[R]_(n.+1, 1)) : 'M[R]_(n.+1, 1) * 'M[R]_1 :=
    let r := row_norm x^T 0 in
    if r == 0 then (\col_i (i == 0)%:R, 0) else (r^-1 *: x, r%:M).
  Lemma ex_qr_correct n : qr_correct (@ex_qr n).
  Proof.
    move=> x; rewrite /ex_qr; set r := row_norm _ _.
    have G : x^T *m x = (r ^+ 2)%:M.
      apply/matrixP => i j; rewrite !ord1 row_norm_sq /gram trmxK [in RHS]mxE /=. by rewrite mulr1n.
    case: eqP => [E|/eqP E]; split=> /=.
    - rewrite mulmx0. have : gram x^T = 0 by rewrite /gram trmxK G E expr2 mul0r -scalemx1 scale0r.
      by move/gram_eq0 => H; rewrite -[x]trmxK H linear0.
    - split; last by move=> i j; rewrite !ord1.
      apply/matrixP => i j; rewrite !ord1 !mxE big_ord_recl big1 ?addr0 ?mxE ?mulr1 // => k _.
      by rewrite !mxE /= mulr0.
    - by rewrite mul_mx_scalar scalerA mulfV // scale1r.
    - split; last by move=> i j; rewrite !ord1.
      have -> : (r^-1 *: x)^T = r^-1 *: x^T by apply/matrixP => i j; rewrite !mxE.
      rewrite -scalemxAl -scalemxAr G -scalemx1 !scalerA.
      by rewrite -invfM -expr2 mulVf ?scale1r // sqrf_eq0.
  Qed.
  Lemma ex_qr_diagonal : forall i, (ex_qr ex_row^T).2 i i != 0.
  Proof.
    move=> i; have E : row_norm ex_row^T^T 0 = 1.
      rewrite /row_norm !big_ord_recl big_ord0 !mxE /=. by rewrite expr1n expr0n /= !addr0 sqrtr1.
    by rewrite /ex_qr E oner_eq0 ord1 mxE eqxx mulr1n oner_eq0.
  Qed.
  Lemma ex_qr_zero : (ex_qr (0 : 'M[R]_(1, 2))^T).2 0 0 = 0.
  Proof.
    have E : row_norm (0 : 'M[R]_(1, 2))^T^T 0 = 0.
      rewrite /row_norm big1 ?sqrtr0 // => j _. by rewrite !mxE expr0n.
    by rewrite /ex_qr E eqxx mxE.
  Qed.
End Examples.
