(** Vocabulary for eigenvalue decompositions. *)
From Coq Require Import ZArith.
From Verif Require Import Base Eigs.
From mathcomp Require Import all_ssreflect all_algebra.
Set Implicit Arguments. Unset Strict Implicit. Unset Printing Implicit Defensive.
Import GRing.Theory Num.Theory.
Local Open Scope ring_scope.

Section Spec.
  Variables (R : realFieldType) (n : nat).
  Notation pair := (pair R n).

  Definition dotp (x y : 'cV[R]_n) : R := (x^T *m y) 0 0.
  Definition at_ (l : seq pair) (i : nat) : pair := nth (0, 0) l i.

  (** [v] is an eigenvector of [A] for [s]; the same relative to [B]. *)
  Definition eigenpair (A : 'M[R]_n) (p : pair) : Prop := A *m p.2 = p.1 *: p.2.
  Definition generalised_eigenpair (A B : 'M[R]_n) (p : pair) : Prop := A *m p.2 = p.1 *: (B *m p.2).
  Definition orthonormal (l : seq pair) : Prop :=
    forall i j, (i < size l)%N -> (j < size l)%N -> dotp (at_ l i).2 (at_ l j).2 = (i == j)%:R.
  Definition ascending (l : seq pair) : Prop :=
    forall i j, (i <= j)%N -> (j < size l)%N -> (at_ l i).1 <= (at_ l j).1.
  Definition descending (l : seq pair) : Prop :=
    forall i j, (i <= j)%N -> (j < size l)%N -> (at_ l j).1 <= (at_ l i).1.

  (** The [k] largest eigenpairs of [A]: outside of them, [A] stretches no vector more. *)
  Definition largest (A : 'M[R]_n) (k : nat) (l : seq pair) : Prop :=
    size l = k /\ (forall p, p \in l -> eigenpair A p) /\ orthonormal l /\ descending l /\
    (forall p x, p \in l -> (forall p', p' \in l -> dotp p'.2 x = 0) -> dotp x (A *m x) <= p.1 * dotp x x).

  (** What the routines of torch promise for a matrix.  [lobpcg] needs at least three times as
      many dimensions as requested eigenpairs (torch/_lobpcg.py), and cannot start from a negative
      number of vectors. *)
  Definition symmetric_mx (A : 'M[R]_n) : Prop := A^T = A.
  Definition positive (A : 'M[R]_n) : Prop := forall x, 0 <= dotp x (A *m x).
  Definition from_lower (A : 'M[R]_n) : 'M[R]_n := \matrix_(i, j) (if (j <= i)%N then A i j else A j i).
  Definition lobpcg_promise (t : torch R n) (A : 'M[R]_n) (B : option 'M[R]_n) : Prop :=
    forall k l, t_lobpcg t A B k = Some l ->
      Z.le 0 k /\ Z.le (Z.mul 3 k) (Z.of_nat n) /\ (B = None -> symmetric_mx A -> largest A (Z.to_nat k) l) /\
      (forall B', B = Some B' -> symmetric_mx A -> symmetric_mx B' ->
         size l = Z.to_nat k /\ forall p, p \in l -> generalised_eigenpair A B' p).
  Definition eigh_promise (t : torch R n) (A : 'M[R]_n) : Prop :=
    size (t_eigh t A) = n /\ (forall p, p \in t_eigh t A -> eigenpair (from_lower A) p) /\
    orthonormal (t_eigh t A) /\ ascending (t_eigh t A).
  (** Right singular vectors with the singular values, in descending order. *)
  Definition svd_promise (t : torch R n) (A : 'M[R]_n) : Prop :=
    size (t_svd t A) = n /\ (forall p, p \in t_svd t A -> 0 <= p.1 /\ eigenpair (A^T *m A) (p.1 ^+ 2, p.2)) /\
    orthonormal (t_svd t A) /\ descending (t_svd t A).
  (** Orthonormal eigenvectors of a symmetric matrix, in any order. *)
  Definition eig_promise (t : torch R n) (A : 'M[R]_n) : Prop :=
    size (t_eig t A) = n /\ (forall p, p \in t_eig t A -> eigenpair A p) /\ orthonormal (t_eig t A).
End Spec.

(** Two by two matrices. *)
Definition mx2 (R : realFieldType) (a b c d : R) : 'M[R]_2 :=
  \matrix_(i, j) (if val i is 0%N then (if val j is 0%N then a else b) else (if val j is 0%N then c else d)).
