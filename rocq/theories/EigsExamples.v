(** Eigenvalue decompositions: the two by two cases. *)
From Coq Require Import ZArith Lia.
From Verif Require Import Base Eigs EigsSpec EigsProofs.
From mathcomp Require Import all_ssreflect all_algebra.
Set Implicit Arguments. Unset Strict Implicit. Unset Printing Implicit Defensive.
Import GRing.Theory Num.Theory Order.TTheory.
Local Open Scope ring_scope.

Section Two.
  Variable R : realFieldType.
  Implicit Types (v w : 'cV[R]_2) (a b c d : R).
  Notation i0 := (ord0 : 'I_2).
  Notation i1 := (lift ord0 ord0 : 'I_2).

  Lemma mx2_mul a b c d v : (mx2 a b c d *m v) i0 0 = a * v i0 0 + b * v i1 0 /\ (mx2 a b c d *m v) i1 0 = c * v i0 0 + d * v i1 0.
  Proof. by split; rewrite mxE big_ord_recl big_ord1 !mxE. Qed.
  Lemma mx2_mx2 a b c d a' b' c' d' :
    mx2 a b c d *m mx2 a' b' c' d' = mx2 (a * a' + b * c') (a * b' + b * d') (c * a' + d * c') (c * b' + d * d').
  Proof.
    apply/matrixP => i j; rewrite mxE big_ord_recl big_ord1 !mxE /=.
    by case: i => [[|[|i]] Hi]; case: j => [[|[|j]] Hj].
  Qed.
  Lemma mx2_tr a b c d : (mx2 a b c d)^T = mx2 a c b d.
  Proof.
    apply/matrixP => i j; rewrite !mxE.
    by case: i => [[|[|i]] Hi]; case: j => [[|[|j]] Hj].
  Qed.
  Lemma mx2_one : 1%:M = mx2 1 0 0 1 :> 'M[R]_2.
  Proof.
    apply/matrixP => i j; rewrite !mxE.
    by case: i => [[|[|i]] Hi]; case: j => [[|[|j]] Hj].
  Qed.
  Lemma mx2_lower a b c d : from_lower (mx2 a b c d) = mx2 a c c d.
  Proof.
    apply/matrixP => i j; rewrite !mxE.
    by case: i => [[|[|i]] Hi]; case: j => [[|[|j]] Hj].
  Qed.
  Lemma mx2_eigen a b c d s v : eigenpair (mx2 a b c d) (s, v) <->
    a * v i0 0 + b * v i1 0 = s * v i0 0 /\ c * v i0 0 + d * v i1 0 = s * v i1 0.
  Proof.
    have [E0 E1] := mx2_mul a b c d v; rewrite /eigenpair /=; split.
      by move=> H; rewrite -E0 -E1 H !mxE.
    move=> [H0 H1]; apply/colP => i; rewrite [RHS]mxE.
    by case: (unliftP ord0 i) => [j ->|->]; rewrite ?(ord1 j) ?E0 ?E1.
  Qed.
  Lemma dot2 v w : dotp v w = v i0 0 * w i0 0 + v i1 0 * w i1 0.
  Proof. by rewrite dotpE big_ord_recl big_ord1. Qed.
  Lemma mx2_diag_dot a d v : dotp v (mx2 a 0 0 d *m v) = a * v i0 0 ^+ 2 + d * v i1 0 ^+ 2.
  Proof. by rewrite dot2; have [-> ->] := mx2_mul a 0 0 d v; rewrite !mul0r addr0 add0r !expr2 ![v _ 0 * (_ * _)]mulrCA. Qed.

  Lemma no_lobpcg (t : torch R 2) A B k : lobpcg_promise t A B -> Z.lt 0 k -> t_lobpcg t A B k = None.
  Proof. by move=> L K; case H : (t_lobpcg t A B k) => [l|] //; have [_ [T _]] := L _ _ H; lia. Qed.

  (** A basis of the plane and what it gives for diagonal matrices. *)
  Definition e0 : 'cV[R]_2 := \col_i (i == i0)%:R.
  Definition e1 : 'cV[R]_2 := \col_i (i == i1)%:R.
  Lemma e_orth (s0 s1 : R) : orthonormal [:: (s0, e0); (s1, e1)].
  Proof.
    by move=> [|[|i]] [|[|j]] //= _ _; rewrite /at_ /= dot2 !mxE /= ?mulr0 ?mul0r ?mulr1 ?addr0 ?add0r.
  Qed.
  Lemma e_orth' (s0 s1 : R) : orthonormal [:: (s1, e1); (s0, e0)].
  Proof.
    by move=> [|[|i]] [|[|j]] //= _ _; rewrite /at_ /= dot2 !mxE /= ?mulr0 ?mul0r ?mulr1 ?addr0 ?add0r.
  Qed.
  Lemma e0_eigen a d : eigenpair (mx2 a 0 0 d) (a, e0).
  Proof. by apply/mx2_eigen; rewrite !mxE /= !mulr0 !mulr1 ?mul0r !addr0. Qed.
  Lemma e1_eigen a d : eigenpair (mx2 a 0 0 d) (d, e1).
  Proof. by apply/mx2_eigen; rewrite !mxE /= !mulr0 !mulr1 ?mul0r !add0r. Qed.
  Lemma diag_sym a d : symmetric_mx (mx2 a 0 0 d).
  Proof. by rewrite /symmetric_mx mx2_tr. Qed.

  (** ** A generalised problem *)
  Lemma gen_B_inv : mx2 2%:R 1 1 1 *m mx2 1 (- 1) (- 1) 2%:R = 1%:M :> 'M[R]_2.
  Proof.
    rewrite mx2_mx2 mx2_one !mulrN !mulr1 !mul1r subrr.
    have -> : 2%:R - 1 = 1 :> R by rewrite mulr2n addrK.
    by congr mx2; rewrite ?addNr // addrC mulr2n addrK.
  Qed.
  Lemma gen_B_unit : mx2 2%:R 1 1 1 \in @unitmx R 2.
  Proof. by have [] := mulmx1_unit gen_B_inv. Qed.
  Lemma gen_operand : invmx (mx2 2%:R 1 1 1) *m mx2 2%:R 1 1 2%:R = mx2 1 (- 1) 0 3%:R :> 'M[R]_2.
  Proof.
    have -> : mx2 2%:R 1 1 2%:R = mx2 2%:R 1 1 1 *m mx2 1 (- 1) 0 3%:R :> 'M[R]_2.
      rewrite mx2_mx2 !mulrN !mulr1 !mulr0 !mul1r !addr0; congr mx2.
      - by rewrite -[3%:R]/(2.+1%:R) -[2.+1]addn1 natrD addrA addNr add0r.
      - by rewrite -[3%:R]/(2.+1%:R) mulrS addrA addNr add0r.
    by rewrite mulKmx // gen_B_unit.
  Qed.
  Theorem wrong_generalised (t : torch R 2) psd :
    let A := mx2 2%:R 1 1 2%:R in let B := mx2 2%:R 1 1 1 in
    lobpcg_promise t A (Some B) -> eigh_promise t (invmx B *m A) ->
    exists p, eigs t A (Some (Zpos xH)) (Some B) psd true = Ok [:: p] /\ ~ generalised_eigenpair A B p.
  Proof.
    move=> A B L E; rewrite eigs_within // (no_lobpcg L) // /operand gen_B_unit.
    move: E; rewrite /eigh_promise gen_operand; move: (t_eigh _ _) => l [S [E [O As]]].
    rewrite mx2_lower in E.
    case: l S E O As => [|[r w] [|[s v] [|]]] //= _ E O As.
    exists (s, v); split => // G.
    have /mx2_eigen [D0 D1] : eigenpair (mx2 1 0 0 3%:R) (s, v) by apply: E; rewrite !inE eqxx orbT.
    have /mx2_eigen [_ F1] : eigenpair (mx2 1 0 0 3%:R) (r, w) by apply: E; rewrite !inE eqxx.
    have N := O 1%N 1%N isT isT; have N' := O 0%N 0%N isT isT; have X := O 0%N 1%N isT isT; have Le := As 0%N 1%N isT isT.
    rewrite /at_ /= in N N' X Le.
    move: D0 D1 F1; rewrite !mul0r !mul1r addr0 !add0r => D0 D1 F1.
    have V1 : v i1 0 = 0.
      have := congr1 (fun x : 'cV[R]_2 => x i0 0) G; rewrite /= [in RHS]mxE.
      have [-> _] := mx2_mul 2%:R 1 1 2%:R v; have [-> _] := mx2_mul 2%:R 1 1 1 v.
      rewrite !mul1r mulrDr mulrCA -D0 -D1 => /addrI /eqP; rewrite -subr_eq0 -[X in X - _]mul1r -mulrBl mulf_eq0 => /orP [|/eqP //].
      by rewrite subr_eq0 (eqr_nat _ 1 3).
    move: N; rewrite dot2 V1 mulr0 addr0 => N.
    have V0 : v i0 0 != 0 by apply: contra_eq_neq N => ->; rewrite mulr0 eq_sym oner_eq0.
    have S1 : s = 1 by apply: (mulIf V0); rewrite -D0 mul1r.
    move: X; rewrite dot2 V1 mulr0 addr0 => /eqP; rewrite mulf_eq0 (negbTE V0) orbF => /eqP W0.
    move: N'; rewrite dot2 W0 mulr0 add0r => N'.
    have W1 : w i1 0 != 0 by apply: contra_eq_neq N' => ->; rewrite mulr0 eq_sym oner_eq0.
    have R3 : r = 3%:R by apply: (mulIf W1); rewrite F1.
    by move: Le; rewrite R3 S1 (ler_nat _ 3 1).
  Qed.

  (** ** Singular values *)
  Lemma svd_square : (mx2 16%:R (- 3%:R) 12%:R 4%:R)^T *m mx2 16%:R (- 3%:R) 12%:R 4%:R = mx2 400%:R 0 0 25%:R :> 'M[R]_2.
  Proof.
    have Q (a b c : nat) : (a * a + b * b = c)%N -> a%:R * a%:R + b%:R * b%:R = c%:R :> R by move=> <-; rewrite natrD !natrM.
    have X (a b c d : nat) : (a * b = c * d)%N -> a%:R * b%:R = c%:R * d%:R :> R by rewrite -!natrM => ->.
    rewrite mx2_tr mx2_mx2 !mulrN !mulNr opprK (Q 16 12 400)%N // (Q 3 4 25)%N // (X 12 4 16 3)%N // (X 4 12 3 16)%N //.
    by rewrite !addNr.
  Qed.
  Theorem wrong_singular (t : torch R 2) :
    let A := mx2 16%:R (- 3%:R) 12%:R 4%:R in
    lobpcg_promise t A None -> svd_promise t A ->
    exists p, eigs t A (Some (Zpos xH)) None true false = Ok [:: p] /\ ~ eigenpair A p.
  Proof.
    move=> A L; rewrite /svd_promise svd_square => - [S [E [O D]]].
    rewrite eigs_within // (no_lobpcg L) //=.
    move: (t_svd t A) S E O D => l S E O D.
    case: l S E O D => [|[s v] [|q [|]]] //= _ E O D.
    exists (s, v); split => // /mx2_eigen [H0 H1].
    have [_ /mx2_eigen [D0 D1]] := E (s, v) (mem_head _ _).
    have N := O 0%N 0%N isT isT; rewrite /at_ /= dot2 in N.
    move: D0 D1; rewrite /= !mul0r addr0 add0r => D0 D1.
    have [V0|V0] := eqVneq (v i0 0) 0.
      have V1 : v i1 0 = 0.
        by move/eqP: H0; rewrite V0 !mulr0 add0r mulNr oppr_eq0 mulf_eq0 pnatr_eq0 /= => /eqP.
      by move/eqP: N; rewrite V0 V1 !mulr0 addr0 eq_sym oner_eq0.
    have S2 : s ^+ 2 = 400%:R by apply: (mulIf V0); rewrite D0.
    have V1 : v i1 0 = 0.
      move/eqP: D1; rewrite S2 -subr_eq0 -mulrBl mulf_eq0 subr_eq0 (eqr_nat _ 25 400) => /orP [|/eqP //].
      by vm_compute.
    by move/eqP: H1; rewrite V1 !mulr0 addr0 mulf_eq0 pnatr_eq0 (negbTE V0).
  Qed.
  (** The matrix is positive and has the eigenvalue 10. *)
  Lemma singular_positive : positive (mx2 16%:R (- 3%:R) 12%:R 4%:R : 'M[R]_2).
  Proof.
    move=> x; rewrite dot2; have [-> ->] := mx2_mul 16%:R (- 3%:R) 12%:R 4%:R x.
    move: (x i0 0) (x i1 0) => a b.
    have P4 : 0 < 4%:R :> R by rewrite ltr0n.
    rewrite -(pmulr_rge0 _ P4).
    have -> : 4%:R * (a * (16%:R * a + - 3%:R * b) + b * (12%:R * a + 4%:R * b)) =
              9%:R * (2%:R * a + b) ^+ 2 + 28%:R * a ^+ 2 + 7%:R * b ^+ 2.
      have -> : a * (16%:R * a + - 3%:R * b) = 16%:R * a ^+ 2 - 3%:R * (a * b).
        by rewrite mulrDr mulNr mulrN ![a * (_ * _)]mulrCA -expr2.
      have -> : b * (12%:R * a + 4%:R * b) = 12%:R * (a * b) + 4%:R * b ^+ 2.
        by rewrite mulrDr ![b * (_ * _)]mulrCA -expr2 [b * a]mulrC.
      have -> : (2%:R * a + b) ^+ 2 = 4%:R * a ^+ 2 + 4%:R * (a * b) + b ^+ 2.
        by rewrite sqrrD exprMn -natrX -mulrA -mulrnAl -mulrnA.
      move: (a ^+ 2) (a * b) (b ^+ 2) => x2 y z.
      have X : 4%:R * (16%:R * x2) = 9%:R * (4%:R * x2) + 28%:R * x2 :> R by rewrite !mulrA -!natrM -mulrDl -natrD.
      have Y : 4%:R * (12%:R * y) = 4%:R * (3%:R * y) + 9%:R * (4%:R * y) :> R by rewrite !mulrA -!natrM -mulrDl -natrD.
      have Z : 4%:R * (4%:R * z) = 9%:R * z + 7%:R * z :> R by rewrite !mulrA -natrM -mulrDl -natrD.
      rewrite !mulrDr mulrN X Y Z.
      move: (9%:R * (4%:R * x2)) (28%:R * x2) (4%:R * (3%:R * y)) (9%:R * (4%:R * y)) (9%:R * z) (7%:R * z) => u1 u2 u3 u4 u5 u6.
      by rewrite -!addrA; congr (_ + _); rewrite addKr addrCA [u2 + (_ + _)]addrCA.
    by rewrite !addr_ge0 // mulr_ge0 // ?ler0n ?sqr_ge0.
  Qed.
  Lemma singular_eigen : eigenpair (mx2 16%:R (- 3%:R) 12%:R 4%:R) (10%:R, e0 + 2%:R *: e1).
  Proof.
    apply/mx2_eigen; rewrite !mxE /= !mulr0 !mulr1 addr0 add0r !mulr1 mulNr -!natrM -natrD; split => //.
    by apply/eqP; rewrite subr_eq -natrD.
  Qed.

  (** ** Unsorted eigenvalues *)
  Definition refuses (A : 'M[R]_2) (B : option 'M[R]_2) (k : Z) : option (seq (Eigs.pair R 2)) := None.
  Definition unsorted : torch R 2 :=
    Torch refuses (fun _ => [:: (1, e0); (2%:R, e1)]) (fun _ => [:: (2%:R, e1); (1, e0)]) (fun _ => [:: (1, e0); (2%:R, e1)]).
  Lemma unsorted_eig : eig_promise unsorted (mx2 1 0 0 2%:R).
  Proof.
    split=> //; split; last exact: e_orth.
    by move=> p; rewrite !inE => /orP [] /eqP ->; [exact: e0_eigen|exact: e1_eigen].
  Qed.
  Lemma unsorted_refuses A B : lobpcg_promise unsorted A B.
  Proof. by []. Qed.
  Lemma one_le_two : 1 <= 2%:R :> R. Proof. by rewrite (ler_nat _ 1 2). Qed.
  Lemma unsorted_eigh : eigh_promise unsorted (mx2 1 0 0 2%:R).
  Proof.
    split=> //; split; last split; last first.
    - by move=> [|[|i]] [|[|j]] //= _ _; rewrite /at_ /= ?lexx ?one_le_two.
    - exact: e_orth.
    - by move=> p; rewrite mx2_lower !inE => /orP [] /eqP ->; [exact: e0_eigen|exact: e1_eigen].
  Qed.
  Lemma diag_pos a d : 0 <= a -> 0 <= d -> positive (mx2 a 0 0 d : 'M[R]_2).
  Proof. by move=> A D x; rewrite mx2_diag_dot addr_ge0 // mulr_ge0 // sqr_ge0. Qed.
  Lemma unsorted_svd : svd_promise unsorted (mx2 1 0 0 2%:R).
  Proof.
    split=> //; split; last split; last first.
    - by move=> [|[|i]] [|[|j]] //= _ _; rewrite /at_ /= ?lexx ?one_le_two.
    - exact: e_orth'.
    - have -> : (mx2 1 0 0 2%:R)^T *m mx2 1 0 0 2%:R = mx2 (1 ^+ 2) 0 0 (2%:R ^+ 2) :> 'M[R]_2.
        by rewrite mx2_tr mx2_mx2 !mulr0 !mul0r addr0 add0r !expr2 add0r.
      by move=> p; rewrite !inE => /orP [] /eqP -> /=; rewrite ?ler0n ?ler01; split => //; [exact: e1_eigen|exact: e0_eigen].
  Qed.
  Theorem wrong_unsorted : 
    exists l, eigs unsorted (mx2 1 0 0 2%:R) (Some (Zpos xH)) None false false = Ok l /\ ~ largest (mx2 1 0 0 2%:R) 1 l.
  Proof.
    exists [:: (1, e0)]; split => // - [_ [_ [_ [_ /(_ (1, e0) e1 (mem_head _ _))]]]] H.
    have : dotp e1 (mx2 1 0 0 2%:R *m e1) <= 1 * dotp e1 e1.
      by apply: H => p'; rewrite inE => /eqP ->; rewrite dot2 !mxE /= mulr0 mul0r addr0.
    by rewrite mx2_diag_dot dot2 !mxE /= !expr2 !mulr0 !mulr1 !add0r mul1r (ler_nat _ 2 1).
  Qed.

  (** A torch for the two other matrices. *)
  Definition other : torch R 2 :=
    Torch refuses (fun _ => [:: (1, e0); (3%:R, e1)]) (fun _ => [:: (20%:R, e0); (5%:R, e1)]) (fun _ => [::]).
  Lemma other_eigh : eigh_promise other (invmx (mx2 2%:R 1 1 1) *m mx2 2%:R 1 1 2%:R).
  Proof.
    rewrite /eigh_promise gen_operand; split=> //; split; last split; last first.
    - by move=> [|[|i]] [|[|j]] //= _ _; rewrite /at_ /= ?lexx ?(ler_nat _ 1 3).
    - exact: e_orth.
    - by move=> p; rewrite mx2_lower !inE => /orP [] /eqP ->; [exact: e0_eigen|exact: e1_eigen].
  Qed.
  Lemma other_svd : svd_promise other (mx2 16%:R (- 3%:R) 12%:R 4%:R).
  Proof.
    rewrite /svd_promise svd_square; split=> //; split; last split; last first.
    - by move=> [|[|i]] [|[|j]] //= _ _; rewrite /at_ /= ?lexx ?(ler_nat _ 5 20).
    - exact: e_orth.
    - have -> : mx2 400%:R 0 0 25%:R = mx2 (20%:R ^+ 2) 0 0 (5%:R ^+ 2) :> 'M[R]_2 by rewrite -!natrX.
      by move=> p; rewrite !inE => /orP [] /eqP -> /=; rewrite ?ler0n; split => //; [exact: e0_eigen|exact: e1_eigen].
  Qed.
End Two.
