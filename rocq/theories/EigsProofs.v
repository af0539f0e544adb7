(** Proofs about eigenvalue decompositions. *)
From Coq Require Import ZArith Lia.
From Verif Require Import Base Eigs EigsSpec.
From mathcomp Require Import all_ssreflect all_algebra.
Set Implicit Arguments. Unset Strict Implicit. Unset Printing Implicit Defensive.
Import GRing.Theory Num.Theory Order.TTheory.
Local Open Scope ring_scope.

Section Basis.
  Variables (R : realFieldType) (n : nat).
  Notation pair := (Eigs.pair R n).
  Implicit Types (l : seq pair) (A : 'M[R]_n) (x : 'cV[R]_n).

  Lemma dotpE x y : dotp x y = \sum_i x i 0 * y i 0.
  Proof. by rewrite /dotp mxE; apply: eq_bigr => i _; rewrite mxE. Qed.
  Lemma dotpC x y : dotp x y = dotp y x.
  Proof. by rewrite !dotpE; apply: eq_bigr => i _; rewrite mulrC. Qed.
  Lemma dotpZr x y a : dotp x (a *: y) = a * dotp x y.
  Proof. by rewrite /dotp -scalemxAr mxE. Qed.
  Lemma dotpZl x y a : dotp (a *: x) y = a * dotp x y.
  Proof. by rewrite dotpC dotpZr dotpC. Qed.
  Lemma dotpMr x y A : dotp x (A *m y) = dotp (A^T *m x) y.
  Proof. by rewrite /dotp trmx_mul trmxK mulmxA. Qed.

  (** The vectors of a list as the columns of a matrix. *)
  Definition columns l : 'M[R]_n := \matrix_(i, j) (at_ l j).2 i 0.
  Lemma columnsP l (j : 'I_n) : col j (columns l) = (at_ l j).2.
  Proof. by apply/colP => i; rewrite !mxE. Qed.

  Lemma columns_orth l : size l = n -> orthonormal l -> (columns l)^T *m columns l = 1%:M.
  Proof.
    move=> S O; apply/matrixP => i j; rewrite mxE [RHS]mxE.
    have := O i j; rewrite S => /(_ (ltn_ord i) (ltn_ord j)) <-.
    by rewrite dotpE; apply: eq_bigr => a _; rewrite !mxE.
  Qed.
  (** Parseval. *)
  Lemma coords l x y : size l = n -> orthonormal l ->
    dotp x y = \sum_(j < n) dotp (at_ l j).2 x * dotp (at_ l j).2 y.
  Proof.
    move=> S O; have C := columns_orth S O; have D := mulmx1C C.
    rewrite /dotp -[y in LHS]mul1mx -D -mulmxA mulmxA -[x^T *m _]trmxK trmx_mul trmxK mxE.
    apply: eq_bigr => j _; congr (_ * _).
    - rewrite mxE /mulmx !mxE; apply: eq_bigr => a _; by rewrite !mxE.
    - rewrite !mxE; apply: eq_bigr => a _; by rewrite !mxE.
  Qed.

  Lemma quad l A x : symmetric_mx A -> size l = n -> orthonormal l -> (forall p, p \in l -> eigenpair A p) ->
    dotp x (A *m x) = \sum_(j < n) (at_ l j).1 * dotp (at_ l j).2 x ^+ 2.
  Proof.
    move=> Sy S O E; rewrite (coords _ _ S O); apply: eq_bigr => j _.
    have I : at_ l j \in l by rewrite mem_nth // S.
    by rewrite dotpMr Sy (E _ I) dotpZl mulrCA expr2.
  Qed.

  (** The last ones of an ascending list are the largest. *)
  Lemma last_largest l A k : symmetric_mx A -> size l = n -> (forall p, p \in l -> eigenpair A p) -> orthonormal l ->
    ascending l -> (k <= n)%N -> largest A k (rev (drop (n - k) l)).
  Proof.
    move=> Sy S E O As K.
    have SD : size (drop (n - k) l) = k by rewrite size_drop S subKn.
    have SR : size (rev (drop (n - k) l)) = k by rewrite size_rev.
    have AT i : (i < k)%N -> at_ (rev (drop (n - k) l)) i = at_ l (n - k + (k - i.+1)).
      by move=> Hi; rewrite /at_ nth_rev SD // nth_drop.
    have LT i : (i < k)%N -> (n - k + (k - i.+1) < n)%N.
      by move=> Hi; rewrite -[X in (_ < X)%N](subnK K) ltn_add2l ltn_subrL /= (leq_ltn_trans (leq0n i) Hi).
    split=> //; split; [|split; [|split]].
    - by move=> p; rewrite mem_rev => /mem_drop; apply: E.
    - move=> i j; rewrite SR => Hi Hj; rewrite !AT // O ?S ?LT //.
      by rewrite eqn_add2l; congr ((_ : bool)%:R); apply/eqP/eqP => [H|->//];
         have := congr1 (fun z => k - z)%N H; rewrite !subKn //; case.
    - move=> i j Hij; rewrite SR => Hj; have Hi := leq_ltn_trans Hij Hj.
      by rewrite !AT // As ?S ?LT // leq_add2l leq_sub2l.
    - move=> p x Hp Z; rewrite (quad x Sy S O E) (coords x x S O) mulr_sumr.
      apply: ler_sum => j _; rewrite -expr2.
      move: Hp; rewrite mem_rev => Hp.
      case: (ltnP j (n - k)) => [Lj|Gj].
      + apply: ler_wpmul2r; first exact: sqr_ge0.
        have /(nthP (0, 0)) [i Hi <-] := Hp; rewrite nth_drop.
        by apply: As; [exact: leq_trans (ltnW Lj) (leq_addr _ _)|rewrite S; move: Hi; rewrite SD => Hi; rewrite -[X in (_ < X)%N](subnK K) ltn_add2l].
      + have -> : dotp (at_ l j).2 x = 0.
          apply: Z; rewrite mem_rev; have -> : at_ l j = nth (0, 0) (drop (n - k) l) (j - (n - k)).
            by rewrite nth_drop subnKC.
          by rewrite mem_nth // SD ltn_subLR // addnC subnKC.
        by rewrite expr0n /= !mulr0.
  Qed.

  (** The first ones of a descending list are the largest. *)
  Lemma orthonormal_rev l : orthonormal l -> orthonormal (rev l).
  Proof.
    move=> O i j; rewrite size_rev => Hi Hj; rewrite /at_ !nth_rev // -!/(at_ _ _) O ?ltn_subrL ?(leq_ltn_trans _ Hi) //.
    congr ((_ : bool)%:R); apply/eqP/eqP => [H|->//].
    by have := congr1 (fun z => size l - z)%N H; rewrite !subKn //; case.
  Qed.
  Lemma ascending_rev l : descending l -> ascending (rev l).
  Proof.
    move=> D i j Hij; rewrite size_rev => Hj; have Hi := leq_ltn_trans Hij Hj.
    by rewrite /at_ !nth_rev // -!/(at_ _ _); apply: D; rewrite ?leq_sub2l // ltn_subrL (leq_ltn_trans _ Hi).
  Qed.
  Lemma first_largest l A k : symmetric_mx A -> size l = n -> (forall p, p \in l -> eigenpair A p) -> orthonormal l ->
    descending l -> (k <= n)%N -> largest A k (take k l).
  Proof.
    move=> Sy S E O D K; have -> : take k l = rev (drop (n - k) (rev l)).
      by rewrite -[l in LHS]revK take_rev size_rev S.
    apply: last_largest => //; first by rewrite size_rev.
    - by move=> p; rewrite mem_rev; apply: E.
    - exact: orthonormal_rev.
    - exact: ascending_rev.
  Qed.

  Lemma dotp_ge0 x : 0 <= dotp x x.
  Proof. by rewrite dotpE sumr_ge0 // => i _; rewrite -expr2 sqr_ge0. Qed.
  Lemma dotp_eq0 x : dotp x x = 0 -> x = 0.
  Proof.
    rewrite dotpE => H; apply/colP => i; rewrite mxE.
    have P (a : 'I_n) : true -> 0 <= x a 0 * x a 0 by move=> _; rewrite -expr2 sqr_ge0.
    by have /eqP := psumr_eq0P P H (erefl : true) (i := i); rewrite mulf_eq0 orbb => /eqP.
  Qed.

  (** The squared decomposition of a symmetric positive matrix is the decomposition. *)
  Lemma square_root_pair A (s : R) (v : 'cV[R]_n) : symmetric_mx A -> positive A -> 0 <= s ->
    eigenpair (A^T *m A) (s ^+ 2, v) -> eigenpair A (s, v).
  Proof.
    rewrite /eigenpair /= => Sy P S; rewrite Sy -mulmxA => E.
    have W : A *m (A *m v - s *: v) = - s *: (A *m v - s *: v).
      by rewrite mulmxBr E -scalemxAr scalerBr !scaleNr scalerA -expr2 opprK addrC.
    set w := A *m v - s *: v in W *; suff : w = 0 by move/eqP; rewrite subr_eq0 => /eqP.
    have [Z|N] := eqVneq s 0.
      apply: dotp_eq0; rewrite /w Z scale0r subr0 dotpMr Sy E Z expr0n /= scale0r.
      by rewrite /dotp trmx0 mul0mx mxE.
    apply: dotp_eq0; apply/eqP; rewrite eq_le dotp_ge0 andbT.
    have := P w; rewrite W dotpZr mulNr oppr_ge0 pmulr_rle0 //.
    by rewrite lt_neqAle eq_sym N.
  Qed.
End Basis.

(** * The routine *)
Section Routine.
  Variables (R : realFieldType) (n : nat) (t : torch R n).
  Notation pair := (Eigs.pair R n).
  Implicit Types (l : seq pair) (A : 'M[R]_n).

  Lemma from_lower_sym A : symmetric_mx A -> from_lower A = A.
  Proof.
    move=> Sy; apply/matrixP => i j; rewrite mxE; case: leqP => // _.
    by have := congr1 (fun M : 'M[R]_n => M i j) Sy; rewrite mxE.
  Qed.
  Lemma slice_last_pos k l : Z.lt 0 k -> slice_last k l = drop (size l - Z.to_nat k) l.
  Proof. by rewrite /slice_last => H; case: (Z.ltb_spec 0 k) => // /(Z.lt_le_trans _ _ _ H) /Z.lt_irrefl. Qed.
  Lemma slice_first_pos k l : Z.lt 0 k -> slice_first k l = take (Z.to_nat k) l.
  Proof. by rewrite /slice_first => H; case: (Z.leb_spec 0 k) => // /(Z.lt_trans _ _ _ H) /Z.lt_irrefl. Qed.
  Lemma to_nat_le k : Z.le k (Z.of_nat n) -> (Z.to_nat k <= n)%N.
  Proof. by move=> H; apply/ssrnat.leP; lia. Qed.

  Lemma eigs_within A k B psd sym : Z.le k (Z.of_nat n) ->
    eigs t A (Some k) B psd sym =
    match t_lobpcg t A B k with
    | Some l => Ok l
    | None => match operand A B with
              | Err e => Err e
              | Ok M => if sym then Ok (rev (slice_last k (t_eigh t M)))
                        else if psd then Ok (slice_first k (t_svd t M)) else Ok (slice_first k (t_eig t M))
              end
    end.
  Proof. by move=> K; rewrite /eigs; case: (Z.ltb_spec (Z.of_nat n) k) => //; lia. Qed.
  Lemma eigh_largest A k : symmetric_mx A -> eigh_promise t A -> Z.lt 0 k -> Z.le k (Z.of_nat n) ->
    largest A (Z.to_nat k) (rev (slice_last k (t_eigh t A))).
  Proof.
    move=> Sy [S [E [O As]]] K0 K1; rewrite slice_last_pos // S; rewrite (from_lower_sym Sy) in E.
    by apply: last_largest => //; exact: to_nat_le.
  Qed.

  Theorem symmetric_result A k psd : symmetric_mx A -> lobpcg_promise t A None -> eigh_promise t A ->
    Z.lt 0 k -> Z.le k (Z.of_nat n) ->
    exists l, eigs t A (Some k) None psd true = Ok l /\ largest A (Z.to_nat k) l.
  Proof.
    move=> Sy L E K0 K1; rewrite eigs_within //.
    case H : (t_lobpcg t A None k) => [l|]; first by exists l; split => //; have [_ [_ [/(_ erefl Sy)]]] := L _ _ H.
    exists (rev (slice_last k (t_eigh t A))); split => //; exact: eigh_largest.
  Qed.
  Theorem all_result A psd : symmetric_mx A -> lobpcg_promise t A None -> eigh_promise t A ->
    exists l, eigs t A None None psd true = Ok l /\ largest A n l.
  Proof.
    move=> Sy L E; rewrite -[X in largest A X](Nat2Z.id n).
    have -> : eigs t A None None psd true = eigs t A (Some (Z.of_nat n)) None psd true by [].
    case: (Z.ltb_spec 0 (Z.of_nat n)) => [P|N]; first by apply: symmetric_result => //; lia.
    rewrite eigs_within; last lia.
    case H : (t_lobpcg t A None _) => [l|]; first by exists l; split => //; have [_ [_ [/(_ erefl Sy)]]] := L _ _ H.
    exists (rev (slice_last (Z.of_nat n) (t_eigh t A))); split => //.
    case: E => [S [E [O As]]]; rewrite (from_lower_sym Sy) in E; rewrite Nat2Z.id.
    have -> : slice_last (Z.of_nat n) (t_eigh t A) = drop (n - n) (t_eigh t A).
      rewrite /slice_last; case: (Z.ltb_spec 0 (Z.of_nat n)) => [|_]; first lia.
      by rewrite (_ : Z.to_nat _ = 0%N) ?subnn //; lia.
    exact: last_largest.
  Qed.
  Theorem negative_count A k psd : Z.lt k 0 -> lobpcg_promise t A None -> eigh_promise t A ->
    exists l, eigs t A (Some k) None psd true = Ok l /\ size l = (n - Z.to_nat (- k))%N.
  Proof.
    move=> K L [S _]; rewrite eigs_within; last lia.
    case H : (t_lobpcg t A None k) => [l|]; first by have [] := L _ _ H; lia.
    exists (rev (slice_last k (t_eigh t A))); split => //; rewrite size_rev /slice_last.
    case: (Z.ltb_spec 0 k) => [|_]; first lia.
    by rewrite size_drop S.
  Qed.

  Theorem psd_result A k : symmetric_mx A -> positive A -> lobpcg_promise t A None -> svd_promise t A ->
    Z.lt 0 k -> Z.le k (Z.of_nat n) ->
    exists l, eigs t A (Some k) None true false = Ok l /\ largest A (Z.to_nat k) l.
  Proof.
    move=> Sy P L [S [E [O D]]] K0 K1; rewrite eigs_within //.
    case H : (t_lobpcg t A None k) => [l|]; first by exists l; split => //; have [_ [_ [/(_ erefl Sy)]]] := L _ _ H.
    exists (slice_first k (t_svd t A)); split => //; rewrite slice_first_pos //.
    apply: first_largest => //; last exact: to_nat_le.
    by move=> [s v] /E [S0 Ev]; exact: square_root_pair.
  Qed.

  Theorem generalised_result A B k psd : symmetric_mx A -> symmetric_mx B -> B \in unitmx -> symmetric_mx (invmx B *m A) ->
    lobpcg_promise t A (Some B) -> eigh_promise t (invmx B *m A) -> Z.lt 0 k -> Z.le k (Z.of_nat n) ->
    exists l, eigs t A (Some k) (Some B) psd true = Ok l /\ size l = Z.to_nat k /\
      forall p, p \in l -> generalised_eigenpair A B p.
  Proof.
    move=> SA SB U SM L E K0 K1; rewrite eigs_within //.
    case H : (t_lobpcg t A _ k) => [l|]; first by exists l; split => //; have [_ [_ [_ /(_ _ erefl SA SB)]]] := L _ _ H.
    rewrite /operand U; exists (rev (slice_last k (t_eigh t (invmx B *m A)))); split => //.
    have [Sz [Ep _]] := eigh_largest SM E K0 K1; split=> // p /Ep; rewrite /eigenpair /generalised_eigenpair => Hp.
    by have := congr1 (fun x => B *m x) Hp; rewrite /= -scalemxAr !mulmxA mulmxV // mul1mx.
  Qed.
  Theorem singular_result A B k psd sym : B \notin unitmx -> t_lobpcg t A (Some B) k = None -> Z.le k (Z.of_nat n) ->
    eigs t A (Some k) (Some B) psd sym = Err ERuntimeError.
  Proof. by move=> U H K; rewrite eigs_within // H /operand (negbTE U). Qed.
  Theorem plain_result A k : t_lobpcg t A None k = None -> eig_promise t A -> Z.lt 0 k -> Z.le k (Z.of_nat n) ->
    exists l, eigs t A (Some k) None false false = Ok l /\ size l = Z.to_nat k /\ forall p, p \in l -> eigenpair A p.
  Proof.
    move=> H [S [E _]] K0 K1; rewrite eigs_within // H /=; exists (slice_first k (t_eig t A)); split => //.
    rewrite slice_first_pos //; split; last by move=> p /mem_take; exact: E.
    by rewrite size_take_min S; apply/minn_idPl; exact: to_nat_le.
  Qed.
  Theorem too_many A k B psd sym : Z.lt (Z.of_nat n) k -> eigs t A (Some k) B psd sym = Err EAssertionError.
  Proof. by rewrite /eigs => H; case: (Z.ltb_spec (Z.of_nat n) k) => //; lia. Qed.
End Routine.
