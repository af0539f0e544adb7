(** Eigenvalue decompositions ([kerch/utils/math.py]).  Definitions only.

    An eigenpair is a value with a vector; the code has a vector of values and a matrix with the
    vectors as columns, which it cuts and flips in the same way.  Numbers are exact. *)
From Coq Require Import ZArith.
From Verif Require Import Base.
From mathcomp Require Import all_ssreflect all_algebra.
Set Implicit Arguments. Unset Strict Implicit. Unset Printing Implicit Defensive.
Import GRing.Theory Num.Theory.
Local Open Scope ring_scope.

(** Python slices [l[-k:]] and [l[:k]] for any integer [k]. *)
Definition slice_last (T : Type) (k : Z) (l : seq T) : seq T :=
  if Z.ltb 0 k then drop (size l - Z.to_nat k) l else drop (Z.to_nat (- k)) l.
Definition slice_first (T : Type) (k : Z) (l : seq T) : seq T :=
  if Z.leb 0 k then take (Z.to_nat k) l else take (size l - Z.to_nat (- k)) l.

Section Eigs.
  Variables (R : realFieldType) (n : nat).
  Definition pair : Type := (R * 'cV[R]_n)%type.

  (** The routines of torch: [lobpcg(A, B, k)], which may refuse; [eigh], which reads the lower
      triangle of its argument and gives the values in ascending order; the right-hand part of
      [svd]; [eig]. *)
  Record torch : Type := Torch {
    t_lobpcg : 'M[R]_n -> option 'M[R]_n -> Z -> option (seq pair);
    t_eigh : 'M[R]_n -> seq pair;
    t_svd : 'M[R]_n -> seq pair;
    t_eig : 'M[R]_n -> seq pair }.

  (** [eigs] (6-66) of a square matrix.  [torch.linalg.inv] raises on a singular matrix. *)
  Definition operand (A : 'M[R]_n) (B : option 'M[R]_n) : result 'M[R]_n :=
    match B with
    | None => Ok A
    | Some B => if B \in unitmx then Ok (invmx B *m A) else Err ERuntimeError
    end.
  Definition eigs (t : torch) (A : 'M[R]_n) (k : option Z) (B : option 'M[R]_n) (psd sym : bool) : result (seq pair) :=
    let k := if k is Some k then k else Z.of_nat n in
    if Z.ltb (Z.of_nat n) k then Err EAssertionError
    else match t_lobpcg t A B k with
         | Some l => Ok l
         | None =>
             match operand A B with
             | Err e => Err e
             | Ok M => if sym then Ok (rev (slice_last k (t_eigh t M)))
                       else if psd then Ok (slice_first k (t_svd t M))
                       else Ok (slice_first k (t_eig t M))
             end
         end.
End Eigs.

(** A matrix that is not square is refused (30-31). *)
Definition eigs_shape (k1 k2 : nat) : result nat := if (k1 == k2)%N then Ok k1 else Err EAssertionError.
