(** Property theorems C143-C145: eigenvalue decompositions. *)
From Coq Require Import ZArith.
From Verif Require Import Base Eigs EigsSpec EigsProofs EigsExamples.
From mathcomp Require Import all_ssreflect all_algebra.
Set Implicit Arguments. Unset Strict Implicit. Unset Printing Implicit Defensive.
Import GRing.Theory Num.Theory.
Local Open Scope ring_scope.

(** * C143 *)

(** The requested number of largest eigenpairs, in descending order, whichever routine computes
    them; all of them by default; no more than there are. *)
Theorem C143_largest :
  forall (R : realFieldType) (n : nat) (t : torch R n) (A : 'M[R]_n) (k : Z) (psd : bool),
    symmetric_mx A -> lobpcg_promise t A None -> eigh_promise t A -> Z.lt 0 k -> Z.le k (Z.of_nat n) ->
    exists l, eigs t A (Some k) None psd true = Ok l /\ largest A (Z.to_nat k) l.
Proof. exact symmetric_result. Qed.
Print Assumptions C143_largest.
Theorem C143_all :
  forall (R : realFieldType) (n : nat) (t : torch R n) (A : 'M[R]_n) (psd : bool),
    symmetric_mx A -> lobpcg_promise t A None -> eigh_promise t A ->
    exists l, eigs t A None None psd true = Ok l /\ largest A n l.
Proof. exact all_result. Qed.
Print Assumptions C143_all.
Theorem C143_bounds :
  (forall (R : realFieldType) (n : nat) (t : torch R n) (A : 'M[R]_n) (k : Z) B psd sym,
     Z.lt (Z.of_nat n) k -> eigs t A (Some k) B psd sym = Err EAssertionError) /\
  (forall k1 k2 : nat, k1 <> k2 -> eigs_shape k1 k2 = Err EAssertionError).
Proof.
split; first exact: too_many.
by move=> k1 k2 /eqP N; rewrite /eigs_shape (negbTE N).
Qed.
Print Assumptions C143_bounds.
(** A negative number leaves out that many eigenpairs instead of being refused. *)
Theorem C143_negative_refuted :
  forall (R : realFieldType) (n : nat) (t : torch R n) (A : 'M[R]_n) (k : Z) (psd : bool),
    Z.lt k 0 -> lobpcg_promise t A None -> eigh_promise t A ->
    exists l, eigs t A (Some k) None psd true = Ok l /\ size l = (n - Z.to_nat (- k))%N.
Proof. exact negative_count. Qed.
Print Assumptions C143_negative_refuted.
Example C143_nontrivial (R : realFieldType) :
  let A := mx2 1 0 0 2%:R : 'M[R]_2 in
  symmetric_mx A /\ lobpcg_promise (unsorted R) A None /\ eigh_promise (unsorted R) A /\
  eigs (unsorted R) A (Some (Zpos xH)) None true true = Ok [:: (2%:R, e1 R)].
Proof. by split; [exact: diag_sym|split; [exact: unsorted_refuses|split; [exact: unsorted_eigh|]]]. Qed.

(** * C144 *)

(** The generalised problem is solved when the two matrices commute, that is when the product
    which is decomposed is itself symmetric. *)
Theorem C144_commuting_partial :
  forall (R : realFieldType) (n : nat) (t : torch R n) (A B : 'M[R]_n) (k : Z) (psd : bool),
    symmetric_mx A -> symmetric_mx B -> B \in unitmx -> symmetric_mx (invmx B *m A) ->
    lobpcg_promise t A (Some B) -> eigh_promise t (invmx B *m A) -> Z.lt 0 k -> Z.le k (Z.of_nat n) ->
    exists l, eigs t A (Some k) (Some B) psd true = Ok l /\ size l = Z.to_nat k /\
      forall p, p \in l -> generalised_eigenpair A B p.
Proof. exact generalised_result. Qed.
Print Assumptions C144_commuting_partial.
Theorem C144_singular_partial :
  forall (R : realFieldType) (n : nat) (t : torch R n) (A B : 'M[R]_n) (k : Z) (psd sym : bool),
    B \notin unitmx -> t_lobpcg t A (Some B) k = None -> Z.le k (Z.of_nat n) ->
    eigs t A (Some k) (Some B) psd sym = Err ERuntimeError.
Proof. exact singular_result. Qed.
Print Assumptions C144_singular_partial.
(** In general only half of that product is read and the result solves another problem. *)
Theorem C144_refuted :
  forall (R : realFieldType) (t : torch R 2) (psd : bool),
    let A := mx2 2%:R 1 1 2%:R in let B := mx2 2%:R 1 1 1 in
    lobpcg_promise t A (Some B) -> eigh_promise t (invmx B *m A) ->
    exists p, eigs t A (Some (Zpos xH)) (Some B) psd true = Ok [:: p] /\ ~ generalised_eigenpair A B p.
Proof. exact wrong_generalised. Qed.
Print Assumptions C144_refuted.
Example C144_nontrivial (R : realFieldType) :
  let A := mx2 2%:R 1 1 2%:R : 'M[R]_2 in let B := mx2 2%:R 1 1 1 in
  symmetric_mx A /\ symmetric_mx B /\ B \in unitmx /\ lobpcg_promise (other R) A (Some B) /\ eigh_promise (other R) (invmx B *m A).
Proof.
split; first by rewrite /symmetric_mx mx2_tr. split; first by rewrite /symmetric_mx mx2_tr.
by split; [exact: gen_B_unit|split; [|exact: other_eigh]].
Qed.
Example C144_commuting_nontrivial (R : realFieldType) :
  let A := mx2 1 0 0 2%:R : 'M[R]_2 in
  symmetric_mx A /\ symmetric_mx (1%:M : 'M[R]_2) /\ 1%:M \in @unitmx R 2 /\ symmetric_mx (invmx 1%:M *m A) /\
  lobpcg_promise (unsorted R) A (Some 1%:M) /\ eigh_promise (unsorted R) (invmx 1%:M *m A).
Proof.
rewrite /= invmx1 mul1mx /symmetric_mx tr_scalar_mx unitmx1.
by do 5 (split; first by [exact: diag_sym|]); exact: unsorted_eigh.
Qed.

(** * C145 *)

(** Not announcing the symmetry of a symmetric positive matrix changes nothing. *)
Theorem C145_positive_partial :
  forall (R : realFieldType) (n : nat) (t : torch R n) (A : 'M[R]_n) (k : Z),
    symmetric_mx A -> positive A -> lobpcg_promise t A None -> svd_promise t A -> Z.lt 0 k -> Z.le k (Z.of_nat n) ->
    exists l, eigs t A (Some k) None true false = Ok l /\ largest A (Z.to_nat k) l.
Proof. exact psd_result. Qed.
Print Assumptions C145_positive_partial.
(** A positive matrix that is not symmetric gets its singular values instead. *)
Theorem C145_singular_refuted :
  forall (R : realFieldType) (t : torch R 2),
    let A := mx2 16%:R (- 3%:R) 12%:R 4%:R in
    lobpcg_promise t A None -> svd_promise t A ->
    positive A /\ eigenpair A (10%:R, e0 R + 2%:R *: e1 R) /\
    exists p, eigs t A (Some (Zpos xH)) None true false = Ok [:: p] /\ ~ eigenpair A p.
Proof.
by move=> R t A L S; split; [exact: singular_positive|split; [exact: singular_eigen|exact: wrong_singular]].
Qed.
Print Assumptions C145_singular_refuted.
(** Announcing nothing gives eigenpairs in an arbitrary order, not the largest. *)
Theorem C145_plain_partial :
  forall (R : realFieldType) (n : nat) (t : torch R n) (A : 'M[R]_n) (k : Z),
    t_lobpcg t A None k = None -> eig_promise t A -> Z.lt 0 k -> Z.le k (Z.of_nat n) ->
    exists l, eigs t A (Some k) None false false = Ok l /\ size l = Z.to_nat k /\ forall p, p \in l -> eigenpair A p.
Proof. exact plain_result. Qed.
Print Assumptions C145_plain_partial.
Theorem C145_unsorted_refuted :
  forall R : realFieldType, exists t : torch R 2,
    let A := mx2 1 0 0 2%:R in
    symmetric_mx A /\ lobpcg_promise t A None /\ eig_promise t A /\
    exists l, eigs t A (Some (Zpos xH)) None false false = Ok l /\ ~ largest A 1 l.
Proof.
move=> R; exists (unsorted R). split; first exact: diag_sym. split; first exact: unsorted_refuses.
by split; [exact: unsorted_eig|exact: wrong_unsorted].
Qed.
Print Assumptions C145_unsorted_refuted.
Example C145_nontrivial (R : realFieldType) :
  (let A := mx2 1 0 0 2%:R in symmetric_mx A /\ positive A /\ lobpcg_promise (unsorted R) A None /\ svd_promise (unsorted R) A) /\
  (let A := mx2 16%:R (- 3%:R) 12%:R 4%:R in lobpcg_promise (other R) A None /\ svd_promise (other R) A).
Proof.
split; last by split; [|exact: other_svd].
split; first exact: diag_sym. split; first by apply: diag_pos; rewrite ?ler01 ?ler0n.
by split; [exact: unsorted_refuses|exact: unsorted_svd].
Qed.
