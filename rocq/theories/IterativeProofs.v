(** The iterative method: proofs. *)
From Coq Require Import Lia.
From mathcomp Require Import all_ssreflect all_algebra.
From Verif Require Import LssvmM IterativeM IterativeSpec.
Set Implicit Arguments. Unset Strict Implicit. Unset Printing Implicit Defensive.
Import GRing.Theory Num.Theory Order.POrderTheory Order.TotalTheory.
Local Open Scope ring_scope.

(** Linear arithmetic on natural numbers. *)
Ltac nl := repeat match goal with H : is_true (leq _ _) |- _ => apply (elimT ssrnat.leP) in H end;
  repeat match goal with H : is_true (~~ leq _ _) |- _ => rewrite -ltnNge in H; apply (elimT ssrnat.leP) in H end;
  try apply (introT ssrnat.leP); change addn with Nat.add in *; change muln with Nat.mul in *; change subn with Nat.sub in *; lia.

Section Rates.
  Variable R : rcfType.
  Notation q := (4%:R / 5%:R : R).
  Lemma e_gt0 k : 0 < (10%:R ^- k : R).
  Proof. by rewrite invr_gt0 exprn_gt0 // ltr0n. Qed.
  Lemma q_gt0 : 0 < q.
  Proof. by rewrite divr_gt0 // ltr0n. Qed.
  Lemma q_le1 : q <= 1.
  Proof. by rewrite ler_pdivr_mulr ?ltr0n // mul1r ler_nat. Qed.
  Lemma q_pow_le k : q ^+ k <= 1.
  Proof. apply: exprn_ile1; [exact: ltW q_gt0 | exact: q_le1]. Qed.
  Lemma q_pow_mono k l : (k <= l)%N -> q ^+ l <= q ^+ k.
  Proof. move=> H. apply: ler_wiexpn2l => //; [exact: ltW q_gt0 | exact: q_le1]. Qed.

  (** After [t] steps with [r] reductions. *)
  Definition inv (lr : R) (t r : nat) (s : schedule R) : Prop :=
    [/\ rate s = lr * q ^+ r, (bad s <= 50)%N, (cooldown s <= 50)%N
      & if t is 0%N then [/\ r = 0%N, bad s = 0%N, cooldown s = 0%N & best_loss s = None]
        else (101 * r + bad s + 1 <= t + cooldown s)%N].

  Lemma reduced (x : R) : 10%:R ^- 5 <= x ->
    (if 10%:R ^- 8 < x - Num.max (x * q) 0 then Num.max (x * q) 0 else x) = x * q.
  Proof.
    move=> Hx. have X : 0 < x by apply: (lt_le_trans (e_gt0 5)). have M : Num.max (x * q) 0 = x * q.
      apply/max_idPl. apply: ltW. by apply: mulr_gt0 X q_gt0.
    rewrite M. have -> : x - x * q = x / 5%:R.
      rewrite -{1}[x]mulr1 -mulrBr. congr (x * _). have N5 : (5%:R : R) != 0 by rewrite pnatr_eq0.
      apply: (mulIf N5). by rewrite mulVf // mulrBl mul1r -mulrA mulVf // mulr1 -natrB.
    rewrite ifT //. have : (10%:R ^- 8 : R) < 10%:R ^- 5 / 5%:R.
      rewrite ltr_pdivl_mulr ?ltr0n // -[8%N]/(5 + 3)%N exprD invfM -mulrA -[ltRHS]mulr1 ltr_pmul2l ?e_gt0 //.
      by rewrite mulrC ltr_pdivr_mulr ?exprn_gt0 ?ltr0n // mul1r -natrX ltr_nat.
    move=> H. apply: (lt_le_trans H). by rewrite ler_pmul2r // invr_gt0 ltr0n.
  Qed.

  Lemma inv_start lr : inv lr 0 0 (start_schedule lr).
  Proof. by split=> //=; rewrite expr0 mulr1. Qed.

  Lemma inv_step lr t r s l : inv lr t r s -> 10%:R ^- 5 <= rate s ->
    exists r', [/\ (r <= r')%N, (r' <= r.+1)%N & inv lr t.+1 r' (schedule_step l s)].
  Proof.
    move=> [E B C I] Hr. rewrite /schedule_step. case: ifP => G; [exists r.+1 | exists r]; split=> //.
    - have C0 : cooldown s = 0%N by case: (cooldown s) G. rewrite C0 /= in G. have T : (0 < t)%N.
        case: t I => // [[_ B0 _ Bn]]. by rewrite Bn in G.
      have B50 : bad s = 50%N. move: G. case: better => // G. apply/eqP. by rewrite eqn_leq B -ltnS.
      split=> //=; first by rewrite reduced // E -mulrA -exprSr.
      move: I. case: (t) T => // u _. rewrite B50 C0. move=> H. nl.
    - split=> //=; [by rewrite leqNgt G | by apply: (leq_trans (leq_pred _) C) |].
      case: (posnP (cooldown s)) => C0.
        rewrite C0 /= in I *. case: t I => [[-> B0 _ Bn]|u H]; first by rewrite Bn.
        case: better; nl.
      case: t I => [[_ _ Z _]|u H]; first by rewrite Z in C0. nl.
  Qed.

  Lemma inv_bound lr t r s : inv lr t r s -> (101 * r <= t + 49)%N.
  Proof. move=> [_ B C I]. case: t I => [[-> _ _ _] //|u H]. nl. Qed.

  Section Run.
    Variables (m d : nat) (obj : 'M[R]_(m, d) -> R) (grad : 'M[R]_(m, d) -> 'M[R]_(m, d)).
    Lemma run_rates lr n : forall t r s x, inv lr t r s -> 10%:R ^- 5 <= rate s ->
      [/\ (size (run obj grad n s x).2 <= n)%N,
          forall i, (i < size (run obj grad n s x).2)%N ->
            exists r', [/\ (r <= r')%N, (101 * r' <= t + i + 49)%N & nth 0 (run obj grad n s x).2 i = lr * q ^+ r']
        & (size (run obj grad n s x).2 < n)%N ->
            exists r', (101 * r' <= t + size (run obj grad n s x).2 + 49)%N /\ lr * q ^+ r' < 10%:R ^- 5].
    Proof.
      elim: n => [|n IH] t r s x I Hr //=. have [r' [R1 R2 I']] := inv_step (obj x) I Hr.
      have first_rate : exists r0, [/\ (r <= r0)%N, (101 * r0 <= t + 0 + 49)%N & rate s = lr * q ^+ r0].
        exists r. split=> //; first by rewrite addn0; exact: inv_bound I. by case: I.
      case: ifP => S.
        split=> //=; first by case.
        move=> _. exists r'. split; first by rewrite addn1; exact: inv_bound I'. case: I' => <- _ _ _. exact: S.
      have Hr' : 10%:R ^- 5 <= rate (schedule_step (obj x) s) by rewrite leNgt S.
      have [A B C] := IH _ _ _ (x - rate s *: grad x) I' Hr'. split=> //=.
        case=> [_|i Hi] //=. have [r2 [Q1 Q2 Q3]] := B _ Hi. exists r2. split=> //; [exact: leq_trans Q1 | by rewrite addSnnS in Q2].
      move=> Hs. have [r2 [Q1 Q2]] := C Hs. exists r2. split=> //. by rewrite addSnnS in Q1.
    Qed.

    Theorem rates lr n x : 10%:R ^- 5 <= lr -> let u := (run obj grad n (start_schedule lr) x).2 in
      [/\ (size u <= n)%N,
          forall i, (i < size u)%N -> exists r, (101 * r <= i + 49)%N /\ nth 0 u i = lr * q ^+ r
        & (size u < n)%N -> exists r, (101 * r <= size u + 49)%N /\ lr * q ^+ r < 10%:R ^- 5].
    Proof.
      move=> Hl u. have [A B C] := run_rates n x (inv_start lr) Hl. split=> // i Hi.
      have [r [_ Q1 Q2]] := B i Hi. by exists r.
    Qed.
    Lemma run_le lr n x : 0 <= lr -> forall y, y \in (run obj grad n (start_schedule lr) x).2 -> 0 <= y <= lr.
    Proof.
      move=> Hl. case: (ltP lr (10%:R ^- 5)) => L y.
        case: n => //= n. rewrite /schedule_step /= L inE => /eqP ->. by rewrite Hl lexx.
      have [_ B _] := rates n x L. move=> /(nthP 0) [i Hi <-]. have [r [_ ->]] := B i Hi.
      by rewrite mulr_ge0 ?exprn_ge0 ?(ltW q_gt0) // ler_pimulr // q_pow_le.
    Qed.
    Theorem tiny lr n x : lr < 10%:R ^- 5 -> (run obj grad n.+1 (start_schedule lr) x) = (x - lr *: grad x, [:: lr]).
    Proof. move=> L. by rewrite /= /schedule_step /= L. Qed.
    Theorem short lr n x : 10%:R ^- 5 <= lr -> (n <= 52)%N -> (run obj grad n (start_schedule lr) x).2 = nseq n lr.
    Proof.
      move=> Hl Hn. have [A B C] := rates n x Hl. have Z : forall r i, (i < 52)%N -> (101 * r <= i + 49)%N -> r = 0%N.
        move=> [//|r] i Hi H. exfalso. have : False; last by []. nl.
      have Sz : size (run obj grad n (start_schedule lr) x).2 = n.
        apply/eqP. rewrite eqn_leq A leqNgt /=. apply/negP => H. have [r [Q1 Q2]] := C H.
        rewrite (Z _ _ (leq_trans H Hn) Q1) expr0 mulr1 in Q2. by rewrite ltNge Hl in Q2.
      apply: (@eq_from_nth _ 0); first by rewrite size_nseq. move=> i Hi. have Hi2 : (i < n)%N by rewrite Sz in Hi.
      rewrite nth_nseq Hi2. have [r [Q1 ->]] := B _ Hi. by rewrite (Z r i) ?expr0 ?mulr1 // (leq_trans Hi2 Hn).
    Qed.
  End Run.

  Lemma q5_ge : 8%:R / 25%:R <= q ^+ 5.
  Proof.
    rewrite expr_div_n ler_pdivr_mulr ?ltr0n // mulrAC ler_pdivl_mulr ?exprn_gt0 ?ltr0n // -!natrX -!natrM ler_nat. by [].
  Qed.
  Lemma q5_le : q ^+ 5 <= 3%:R^-1.
  Proof.
    rewrite expr_div_n ler_pdivr_mulr ?exprn_gt0 ?ltr0n // mulrC ler_pdivl_mulr ?ltr0n // -!natrX -!natrM ler_nat. by [].
  Qed.
  Lemma q20_ge : 10%:R ^- 2 <= q ^+ 20.
  Proof.
    have H : (10%:R^-1 : R) <= (8%:R / 25%:R) ^+ 2.
      rewrite expr_div_n -[X in X <= _]mul1r ler_pdivr_mulr ?ltr0n // mulrAC ler_pdivl_mulr ?exprn_gt0 ?ltr0n // mul1r -!natrX -!natrM ler_nat. by [].
    have H2 : (8%:R / 25%:R : R) ^+ 2 <= q ^+ 10.
      rewrite -[10%N]/(5 * 2)%N exprM. apply: ler_expn2r; rewrite ?nnegrE ?q5_ge //; first by rewrite divr_ge0 ?ler0n.
      apply: exprn_ge0. exact: ltW q_gt0.
    rewrite -[20%N]/(10 * 2)%N exprM -exprVn. apply: ler_expn2r; rewrite ?nnegrE ?(le_trans H H2) //; first by rewrite invr_ge0 ler0n.
    apply: exprn_ge0. exact: ltW q_gt0.
  Qed.
  Lemma q21_lt : q ^+ 21 < 10%:R ^- 2.
  Proof.
    have H : q ^+ 20 <= (3%:R^-1) ^+ 4.
      rewrite -[20%N]/(5 * 4)%N exprM. apply: ler_expn2r; rewrite ?nnegrE ?q5_le //; last by rewrite invr_ge0 ler0n.
      apply: exprn_ge0. exact: ltW q_gt0.
    rewrite exprSr. apply: (@le_lt_trans _ _ (3%:R^-1 ^+ 4 * q)); first by rewrite ler_pmul2r ?q_gt0.
    rewrite exprVn mulrC -[ltRHS]mul1r !ltr_pdivl_mulr ?exprn_gt0 ?ltr0n // mulrAC ltr_pdivr_mulr ?exprn_gt0 ?ltr0n //.
    rewrite mulrAC ltr_pdivr_mulr ?ltr0n // mul1r -!natrX -!natrM ltr_nat. by [].
  Qed.

  (** The default rate. *)
  Notation lr0 := (10%:R ^- 3 : R).
  Lemma lr0_ge : 10%:R ^- 5 <= lr0.
  Proof. rewrite lef_pinv ?posrE ?exprn_gt0 ?ltr0n // ler_eexpn2l //. by rewrite -[1]/(1%:R) ltr_nat. Qed.
  Lemma lr0_low r : (lr0 * q ^+ r < 10%:R ^- 5) = (20 < r)%N.
  Proof.
    have E : (10%:R ^- 5 : R) = lr0 * 10%:R ^- 2 by rewrite -[5%N]/(3 + 2)%N exprD invfM.
    rewrite E ltr_pmul2l ?e_gt0 //. case: (ltnP 20 r) => H.
      apply: (le_lt_trans _ q21_lt). exact: q_pow_mono.
    apply/negbTE. rewrite -leNgt. apply: (le_trans q20_ge). exact: q_pow_mono.
  Qed.
  Theorem default_steps m d (obj : 'M[R]_(m, d) -> R) grad n x : (n <= 2072)%N -> size (run obj grad n (start_schedule lr0) x).2 = n.
  Proof.
    move=> Hn. have [A B C] := rates obj grad n x lr0_ge. apply/eqP. rewrite eqn_leq A leqNgt /=. apply/negP => H.
    have [r [Q1 Q2]] := C H. rewrite lr0_low in Q2. move: (leq_trans H Hn) => H2. have : False; last by [].
    set z := size _ in Q1 H2. clearbody z. clear -Q1 Q2 H2. nl.
  Qed.

  (** A constant loss. *)
  Definition inv_eq (c : R) (t r : nat) (s : schedule R) : Prop :=
    [/\ rate s = lr0 * q ^+ r, (bad s <= 50)%N, (cooldown s <= 50)%N, ((0 < cooldown s)%N -> bad s = 0%N)
      & if t is 0%N then [/\ r = 0%N, bad s = 0%N, cooldown s = 0%N & best_loss s = None]
        else best_loss s = Some c /\ (101 * r + bad s + 1 = t + cooldown s)%N].
  Lemma inv_eq_step c t r s : 0 <= c -> inv_eq c t r s -> 10%:R ^- 5 <= rate s -> exists r', inv_eq c t.+1 r' (schedule_step c s).
  Proof.
    move=> Hc [E B C D I] Hr. have NB : better (Some c) c = false.
      rewrite /= -subr_lt0 -{1}[c]mulr1 -mulrBr opprB addrCA subrr addr0. apply/negbTE. rewrite -leNgt.
      by rewrite mulr_ge0 // ltW // e_gt0.
    rewrite /schedule_step. case: t I => [[R0 B0 C0 N0]|u [Bs Eq]].
      rewrite N0 /= C0 /=. exists r. split=> //=. by rewrite R0.
    rewrite Bs NB. case: (posnP (cooldown s)) => C0.
      rewrite C0 addn0 in Eq *. case: ifP => G /=.
        have B50 : bad s = 50%N by apply/eqP; rewrite eqn_leq B -ltnS.
        exists r.+1. split=> //=; first by rewrite reduced // E -mulrA -exprSr. split=> //. rewrite B50 in Eq. clear -Eq. nl.
      exists r. split=> //=; first by rewrite leqNgt G. split=> //. rewrite addn0. clear -Eq. nl.
    exists r. split=> //=; first by apply: (leq_trans (leq_pred _) C). split=> //. have B0 := D C0. rewrite B0 in Eq.
    case: (cooldown s) C0 Eq => // v _ Eq /=. clear -Eq. nl.
  Qed.
  Theorem constant_steps m d (obj : 'M[R]_(m, d) -> R) grad c n x : 0 <= c -> (forall y, obj y = c) ->
    size (run obj grad n (start_schedule lr0) x).2 = minn n 2072.
  Proof.
    move=> Hc Ho. suff H : forall k t r s y, inv_eq c t r s -> 10%:R ^- 5 <= rate s -> (t < 2072)%N ->
        (t + size (run obj grad k s y).2 = minn (t + k) 2072)%N.
      have := H n 0%N 0%N (start_schedule lr0) x. rewrite !add0n => -> //; last exact: lr0_ge. by split; rewrite //= expr0 mulr1.
    elim=> [|k IH] t r s y I Hr Ht /=; first by rewrite !addn0; apply/esym/minn_idPl/ltnW.
    rewrite Ho. have [r' I'] := inv_eq_step Hc I Hr. have Rt : (rate (schedule_step c s) < 10%:R ^- 5) = (2071 < t.+1)%N.
      case: I' => -> B C _ [_ Eq]. rewrite lr0_low. apply/idP/idP => Q; clear -B C Eq Q; nl.
    case: ifP => S; rewrite Rt in S.
      rewrite /= addn1. have E : t.+1 = 2072%N by apply/eqP; rewrite eqn_leq Ht S. rewrite E. symmetry. apply/minn_idPr. rewrite -addSnnS E. exact: leq_addr.
    rewrite /= -!addSnnS. apply: (IH _ r' _ _ I'); [by rewrite leNgt Rt S | by rewrite ltnNge S].
  Qed.
End Rates.

Section Dot.
  Variable R : rcfType.
  Lemma dotDr m d (A B C : 'M[R]_(m, d)) : dot A (B + C) = dot A B + dot A C.
  Proof.
    rewrite /dot -big_split /=. apply: eq_bigr => i _. rewrite -big_split /=. apply: eq_bigr => j _. by rewrite !mxE mulrDr.
  Qed.
  Lemma dotZr m d c (A B : 'M[R]_(m, d)) : dot A (c *: B) = c * dot A B.
  Proof.
    rewrite /dot mulr_sumr. apply: eq_bigr => i _. rewrite mulr_sumr. apply: eq_bigr => j _. by rewrite !mxE mulrCA.
  Qed.
  Lemma dotC m d (A B : 'M[R]_(m, d)) : dot A B = dot B A.
  Proof. apply: eq_bigr => i _. apply: eq_bigr => j _. by rewrite mulrC. Qed.
  Lemma dotZl m d c (A B : 'M[R]_(m, d)) : dot (c *: A) B = c * dot A B.
  Proof. by rewrite dotC dotZr dotC. Qed.
  Lemma dotNr m d (A B : 'M[R]_(m, d)) : dot A (- B) = - dot A B.
  Proof. by rewrite -scaleN1r dotZr mulN1r. Qed.
  Lemma dot_ge0 m d (A : 'M[R]_(m, d)) : 0 <= dot A A.
  Proof. apply: sumr_ge0 => i _. apply: sumr_ge0 => j _. rewrite -expr2. exact: sqr_ge0. Qed.
  Lemma dist2_dot m d (A B : 'M[R]_(m, d)) : dist2 A B = dot (A - B) (A - B).
  Proof. apply: eq_bigr => i _. apply: eq_bigr => j _. by rewrite !mxE expr2. Qed.
  Lemma dist2_ge0 m d (A B : 'M[R]_(m, d)) : 0 <= dist2 A B.
  Proof. rewrite dist2_dot. exact: dot_ge0. Qed.
  Lemma dot_add m d (A B : 'M[R]_(m, d)) : dot (A + B) (A + B) = dot A A + 2%:R * dot A B + dot B B.
  Proof. rewrite dotDr ![dot (A + B) _]dotC !dotDr [dot B A]dotC mulr_natl mulr2n. by rewrite !addrA. Qed.

  Lemma cauchy_schwarz d (a b : 'I_d -> R) : (\sum_j a j * b j) ^+ 2 <= (\sum_j a j ^+ 2) * (\sum_j b j ^+ 2).
  Proof.
    have H : 0 <= \sum_i \sum_j (a i * b j - a j * b i) ^+ 2 by apply: sumr_ge0 => i _; apply: sumr_ge0 => j _; exact: sqr_ge0.
    have E : \sum_i \sum_j (a i * b j - a j * b i) ^+ 2 = 2%:R * ((\sum_j a j ^+ 2) * (\sum_j b j ^+ 2) - (\sum_j a j * b j) ^+ 2).
      have -> : \sum_i \sum_j (a i * b j - a j * b i) ^+ 2 =
        \sum_i \sum_j (a i ^+ 2 * b j ^+ 2) + \sum_i \sum_j (b i ^+ 2 * a j ^+ 2) - 2%:R * \sum_i \sum_j ((a i * b i) * (a j * b j)).
        rewrite mulr_sumr -sumrN -!big_split /=. apply: eq_bigr => i _. rewrite mulr_sumr -sumrN -!big_split /=. apply: eq_bigr => j _.
        rewrite sqrrB !exprMn -mulr_natl [b i ^+ 2 * _]mulrC addrAC. congr (_ - 2%:R * _). by rewrite [a j * b i]mulrC mulrACA [b j * a j]mulrC.
      have P : forall f g : 'I_d -> R, \sum_i \sum_j (f i * g j) = (\sum_i f i) * (\sum_j g j).
        move=> f g. rewrite mulr_suml. apply: eq_bigr => i _. by rewrite mulr_sumr.
      rewrite (P (fun i => a i ^+ 2) (fun j => b j ^+ 2)) (P (fun i => b i ^+ 2) (fun j => a j ^+ 2)) (P (fun i => a i * b i) (fun j => a j * b j)).
      by rewrite [X in _ + X - _]mulrC -mulr2n -expr2 mulrBr !mulr_natl.
    rewrite E pmulr_rge0 ?ltr0n // subr_ge0 in H. exact: H.
  Qed.
  Lemma dot_product_le m n d (D : 'M[R]_(m, d)) (S : 'M[R]_(n, d)) : dot (D *m S^T) (D *m S^T) <= dot D D * dot S S.
  Proof.
    rewrite /dot mulr_suml. apply: ler_sum => i _. rewrite mulr_sumr. apply: ler_sum => k _.
    rewrite !mxE -expr2. have := cauchy_schwarz (D i) (S k).
    have -> : \sum_j D i j * S^T j k = \sum_j D i j * S k j by apply: eq_bigr => j _; rewrite mxE.
    have -> : \sum_j D i j ^+ 2 = \sum_j D i j * D i j by apply: eq_bigr => j _; rewrite expr2.
    by have -> : \sum_j S k j ^+ 2 = \sum_j S k j * S k j by apply: eq_bigr => j _; rewrite expr2.
  Qed.
End Dot.

Section Descent.
  Variables (R : rcfType) (m d : nat) (obj : 'M[R]_(m, d) -> R) (grad : 'M[R]_(m, d) -> 'M[R]_(m, d)).
  Notation two := (2%:R : R).
  Lemma two_gt0 : 0 < two. Proof. by rewrite ltr0n. Qed.
  Lemma step_descent L eta x : smooth L obj grad -> 0 <= eta -> eta * L <= two ->
    obj (x - eta *: grad x) <= obj x - eta * (1 - eta * L / two) * dot (grad x) (grad x).
  Proof.
    move=> S He HL. have := S x (x - eta *: grad x). rewrite dist2_dot.
    have -> : x - eta *: grad x - x = - (eta *: grad x) by rewrite addrAC subrr add0r.
    have -> : dot (- (eta *: grad x)) (- (eta *: grad x)) = eta ^+ 2 * dot (grad x) (grad x).
      by rewrite dotNr dotC dotNr opprK dotZr dotZl mulrA expr2.
    rewrite dotNr dotZr => H. apply: (le_trans H). rewrite -addrA ler_add2l le_eqVlt. apply/orP. left. apply/eqP.
    set g := dot _ _. rewrite mulrBr mulr1 mulrBl opprB addrC. congr (_ - _). rewrite expr2 !mulrA. congr (_ * _).
    rewrite [L / two * eta]mulrAC [_ / two * eta]mulrAC. congr (_ * _). by rewrite [L * eta]mulrC -[RHS]mulrA [eta * L]mulrC mulrA [eta * L]mulrC.
  Qed.
  Lemma step_down L eta x : smooth L obj grad -> 0 <= eta -> eta * L <= two -> obj (x - eta *: grad x) <= obj x.
  Proof.
    move=> S He HL. apply: (le_trans (step_descent x S He HL)). rewrite ler_subl_addr ler_addl.
    rewrite mulr_ge0 ?dot_ge0 // mulr_ge0 // subr_ge0 ler_pdivr_mulr ?two_gt0 // mul1r. exact: HL.
  Qed.
  Lemma step_closer L eta x z : smooth L obj grad -> convex obj grad -> 0 <= eta -> eta * L <= 1 ->
    two * eta * (obj (x - eta *: grad x) - obj z) <= dist2 x z - dist2 (x - eta *: grad x) z.
  Proof.
    move=> S C He HL. have HL2 : eta * L <= two by apply: (le_trans HL); rewrite ler1n.
    have D := step_descent x S He HL2. have V := C x z.
    set g := grad x in D V *. set G := dot g g in D *. have G0 : 0 <= G by exact: dot_ge0.
    have E : dist2 x z - dist2 (x - eta *: g) z = two * eta * dot g (x - z) - eta ^+ 2 * G.
      rewrite !dist2_dot. have -> : x - eta *: g - z = (x - z) + (- (eta *: g)) by rewrite addrAC.
      have A : dot (x - z) (- (eta *: g)) = - (eta * dot g (x - z)) by rewrite dotNr dotZr dotC.
      have B : dot (- (eta *: g)) (- (eta *: g)) = eta ^+ 2 * G by rewrite dotNr dotC dotNr opprK dotZr dotZl mulrA expr2.
      rewrite (dot_add (x - z)) A B !opprD !addrA subrr add0r mulrN opprK mulrA. by [].
    rewrite E. have V2 : obj x - obj z <= dot g (x - z).
      have X : dot g (z - x) = - dot g (x - z) by rewrite -dotNr opprB. rewrite X in V.
      by rewrite ler_subl_addr addrC -ler_subl_addr.
    have D2 : obj (x - eta *: g) <= obj x - eta / two * G.
      apply: (le_trans D). rewrite ler_add2l ler_opp2. apply: ler_wpmul2r => //. rewrite ler_wpmul2l //.
      have H2 : (two^-1 : R) = 1 - 1 / two.
        have N2 : two != 0 by rewrite pnatr_eq0. apply: (mulIf N2). by rewrite div1r mulrBl mul1r mulVf // mulr2n addrK.
      rewrite [X in X <= _]H2 ler_add2l ler_opp2. apply: ler_wpmul2r => //. by rewrite invr_ge0 ler0n.
    have T : obj (x - eta *: g) - obj z <= dot g (x - z) - eta / two * G.
      apply: (le_trans (ler_add D2 (lexx _))). rewrite addrAC. by apply: ler_add.
    have P : 0 <= two * eta by rewrite mulr_ge0 // ltW // two_gt0.
    apply: (le_trans (ler_wpmul2l P T)). rewrite mulrBr ler_add2l ler_opp2 expr2 mulrA ler_wpmul2r //.
    have N2 : two != 0 by rewrite pnatr_eq0.
    by rewrite [eta / two]mulrC mulrACA mulfV // mul1r.
  Qed.

  (** The whole run; [Sigma] is the sum of the rates used. *)
  Lemma run_down L n : smooth L obj grad -> forall s x, (forall y, y \in (run obj grad n s x).2 -> 0 <= y /\ y * L <= two) ->
    obj (run obj grad n s x).1 <= obj x.
  Proof.
    move=> S. elim: n => [|n IH] s x //=. case: ifP => _ H /=.
      have [A B] := H _ (mem_head _ _). exact: step_down A B.
    have [A B] := H _ (mem_head _ _). apply: (le_trans (IH _ _ _)); last exact: step_down A B.
    move=> y Hy. apply: H. by rewrite inE Hy orbT.
  Qed.
  Lemma run_closer L n z : smooth L obj grad -> convex obj grad -> forall s x,
    (forall y, y \in (run obj grad n s x).2 -> 0 <= y /\ y * L <= 1) ->
    two * (\sum_(y <- (run obj grad n s x).2) y) * (obj (run obj grad n s x).1 - obj z) <= dist2 x z - dist2 (run obj grad n s x).1 z.
  Proof.
    have L12 : (1 : R) <= two by rewrite ler1n.
    move=> S C. elim: n => [|n IH] s x /=; first by rewrite big_nil mulr0 mul0r subrr.
    case: ifP => _ H /=.
      have [A B] := H _ (mem_head _ _). rewrite big_seq1. exact: step_closer A B.
    have [A B] := H _ (mem_head _ _). set x' := x - _. set r := run _ _ _ _ _.
    have H' : forall y, y \in r.2 -> 0 <= y /\ y * L <= 1 by move=> y Hy; apply: H; rewrite inE Hy orbT.
    have I := IH _ _ H'. have St := step_closer x z S C A B. rewrite -/x' in St I.
    have D : obj r.1 <= obj x' by apply: (run_down S) => y /H' [Y1 Y2]; split=> //; exact: (le_trans Y2).
    rewrite big_cons [two * (_ + _)]mulrDr [(_ + two * _) * _]mulrDl. have -> : dist2 x z - dist2 r.1 z = (dist2 x z - dist2 x' z) + (dist2 x' z - dist2 r.1 z) by rewrite addrA subrK.
    apply: ler_add; last exact: I. apply: le_trans St. apply: ler_wpmul2l; first by rewrite mulr_ge0 // ler0n. by rewrite ler_add2r.
  Qed.
  Lemma run_still n s x : grad x = 0 -> (run obj grad n s x).1 = x.
  Proof. move=> G. elim: n s => [|n IH] s //=. rewrite G scaler0 subr0. by case: ifP => _ //=. Qed.

  Theorem never_worse L lr n x : smooth L obj grad -> 0 <= lr -> lr * L <= two -> obj (run obj grad n (start_schedule lr) x).1 <= obj x.
  Proof.
    move=> S Hl HL. apply: (run_down S) => y /(run_le Hl) /andP [Y1 Y2]. split=> //.
    case: (lerP 0 L) => L0; first by apply: le_trans HL; apply: ler_wpmul2r.
    apply: (@le_trans _ _ 0); last by rewrite ler0n. apply: mulr_ge0_le0 => //. exact: ltW.
  Qed.
  Theorem converges L lr n x z : smooth L obj grad -> convex obj grad -> 0 <= lr -> lr * L <= 1 ->
    let r := run obj grad n (start_schedule lr) x in
    two * (\sum_(y <- r.2) y) * (obj r.1 - obj z) <= dist2 x z - dist2 r.1 z.
  Proof.
    move=> S C Hl HL. apply: (run_closer z S C) => y /(run_le Hl) /andP [Y1 Y2]. split=> //.
    case: (lerP 0 L) => L0; first by apply: le_trans HL; apply: ler_wpmul2r.
    apply: (@le_trans _ _ 0); last by rewrite ler01. apply: mulr_ge0_le0 => //. exact: ltW.
  Qed.
End Descent.

Section Linear.
  Variables (R : rcfType) (n m d : nat) (S : 'M[R]_(n, d)) (K : 'M[R]_(m, n)).
  Notation c := ((m * n)%:R^-1 : R).
  Lemma c_ge0 : 0 <= c. Proof. by rewrite invr_ge0 ler0n. Qed.
  Lemma obj_dot x : linear_obj S K x = c * dot (x *m S^T - K) (x *m S^T - K).
  Proof. rewrite /linear_obj /mse. congr (_ * _). exact: dist2_dot. Qed.
  Lemma dot_mulr (E : 'M[R]_(m, n)) (D : 'M[R]_(m, d)) : dot (E *m S) D = dot E (D *m S^T).
  Proof.
    rewrite /dot. apply: eq_bigr => i _.
    have -> : \sum_j (E *m S) i j * D i j = \sum_j \sum_k E i k * S k j * D i j by apply: eq_bigr => j _; rewrite mxE mulr_suml.
    rewrite exchange_big /=. apply: eq_bigr => k _. rewrite mxE mulr_sumr. apply: eq_bigr => j _. by rewrite mxE -mulrA [S k j * _]mulrC.
  Qed.
  Lemma obj_expand x y : linear_obj S K y =
    linear_obj S K x + dot (linear_grad S K x) (y - x) + c * dot ((y - x) *m S^T) ((y - x) *m S^T).
  Proof.
    rewrite !obj_dot /linear_grad dotZl dot_mulr. have -> : y *m S^T - K = (x *m S^T - K) + (y - x) *m S^T.
      by rewrite mulmxBl [RHS]addrC addrA subrK.
    set e := x *m S^T - K. set f := (y - x) *m S^T. rewrite (dot_add e f).
    have -> : c * (dot e e + 2%:R * dot e f + dot f f) = c * dot e e + c * (2%:R * dot e f) + c * dot f f by rewrite [LHS]mulrDr [c * (_ + _)]mulrDr.
    by rewrite [c * (2%:R * _)]mulrA [c * 2%:R]mulrC.
  Qed.
  Lemma linear_convex : convex (linear_obj S K) (linear_grad S K).
  Proof. move=> x y. rewrite (obj_expand x y) ler_addl mulr_ge0 ?c_ge0 ?dot_ge0 //. Qed.
  Definition curvature : R := 2%:R * c * (\sum_i \sum_j S i j ^+ 2).
  Lemma linear_smooth : smooth curvature (linear_obj S K) (linear_grad S K).
  Proof.
    move=> x y. rewrite (obj_expand x y) ler_add2l dist2_dot /curvature. have N2 : (2%:R : R) != 0 by rewrite pnatr_eq0.
    have -> : 2%:R * c * (\sum_i \sum_j S i j ^+ 2) / 2%:R * dot (y - x) (y - x) = c * (dot (y - x) (y - x) * dot S S).
      have -> : \sum_i \sum_j S i j ^+ 2 = dot S S by apply: eq_bigr => i _; apply: eq_bigr => j _; rewrite expr2.
      rewrite -[2%:R * c]mulrC. rewrite -!mulrA. congr (c * _). rewrite !mulrA [2%:R * _]mulrC -[_ * 2%:R / _]mulrA mulfV // mulr1 mulrC. by [].
    apply: ler_wpmul2l; [exact: c_ge0 | exact: dot_product_le].
  Qed.
  Lemma linear_still x : x *m S^T = K -> linear_grad S K x = 0.
  Proof. move=> E. by rewrite /linear_grad E subrr mul0mx scaler0. Qed.
End Linear.

Section One.
  Variables (R : rcfType) (s k : R).
  Notation S := (s%:M : 'M[R]_1). Notation K := (k%:M : 'M[R]_1).
  Lemma one_curvature : curvature 1 S = 2%:R * s ^+ 2.
  Proof. by rewrite /curvature !big_ord1 mxE eqxx mulr1n invr1 mulr1. Qed.
  Lemma one_obj x : linear_obj S K x = (x 0 0 * s - k) ^+ 2.
  Proof.
    rewrite /linear_obj /mse !big_ord1 mul1n invr1 mul1r tr_scalar_mx mul_mx_scalar !mxE eqxx mulr1n. by rewrite [s * _]mulrC.
  Qed.
  Lemma one_grad x : (linear_grad S K x) 0 0 = 2%:R * (x 0 0 * s - k) * s.
  Proof.
    rewrite /linear_grad muln1 invr1 mulr1 mxE mul_mx_scalar tr_scalar_mx mul_mx_scalar !mxE eqxx mulr1n -mulrA. congr (2%:R * _). by rewrite mulrC [s * x 0 0]mulrC.
  Qed.
  Lemma one_step eta x : linear_obj S K (x - eta *: linear_grad S K x) = (1 - eta * (2%:R * s ^+ 2)) ^+ 2 * linear_obj S K x.
  Proof.
    rewrite !one_obj -exprMn. congr (_ ^+ 2).
    have -> : (x - eta *: linear_grad S K x) 0 0 = x 0 0 - eta * (2%:R * (x 0 0 * s - k) * s) by rewrite -one_grad !mxE.
    set e := x 0 0 * s - k. set g := eta * _. have -> : (x 0 0 - g) * s - k = e - g * s by rewrite mulrBl addrAC.
    rewrite [RHS]mulrBl mul1r. congr (_ - _). rewrite /g expr2 -!mulrA. congr (_ * (_ * _)). by rewrite mulrCA [e * s]mulrC.
  Qed.
  Lemma one_run lr n : forall t x, (forall y, y \in (run (linear_obj S K) (linear_grad S K) n t x).2 -> y = lr) ->
    linear_obj S K (run (linear_obj S K) (linear_grad S K) n t x).1 =
    ((1 - lr * (2%:R * s ^+ 2)) ^+ 2) ^+ size (run (linear_obj S K) (linear_grad S K) n t x).2 * linear_obj S K x.
  Proof.
    elim: n => [|n IH] t x /=; first by rewrite expr0 mul1r. case: ifP => _ /= H.
      by rewrite expr1 one_step (H (rate t)) // mem_head.
    rewrite IH; last by move=> y Hy; apply: H; rewrite inE Hy orbT.
    by rewrite one_step (H (rate t)) ?mem_head // mulrA -exprSr.
  Qed.
  Theorem one_exact lr n x : 10%:R ^- 5 <= lr -> (n <= 52)%N ->
    linear_obj S K (run (linear_obj S K) (linear_grad S K) n (start_schedule lr) x).1 =
    ((1 - lr * curvature 1 S) ^+ 2) ^+ n * linear_obj S K x.
  Proof.
    move=> Hl Hn. have U := short (linear_obj S K) (linear_grad S K) x Hl Hn.
    rewrite one_curvature (one_run (lr := lr)) ?U ?size_nseq // => y. by rewrite mem_nseq => /andP [_ /eqP].
  Qed.
  Theorem one_diverges lr n x : 10%:R ^- 5 <= lr -> (0 < n <= 52)%N -> 2%:R < lr * curvature 1 S -> linear_obj S K x != 0 ->
    linear_obj S K x < linear_obj S K (run (linear_obj S K) (linear_grad S K) n (start_schedule lr) x).1.
  Proof.
    move=> Hl /andP [N0 Hn] HL Hx. rewrite one_exact // -[X in X < _]mul1r ltr_pmul2r; last first.
      rewrite lt_def Hx one_obj. exact: sqr_ge0.
    have G : 1 < (1 - lr * curvature 1 S) ^+ 2 by rewrite -sqrrN opprB exprn_egt1 // ltr_subr_addr -[1 + 1]/(2%:R).
    by rewrite exprn_egt1 // -lt0n.
  Qed.
End One.
