(** The package [kerch.preimage], an older version of [kerch.method].  Definitions only. *)
From Verif Require Import Base RVec Method.
Open Scope R_scope.

Section OldPreimage.
  (** [torch.sort(row, descending=True)] (preimage/smoother.py:20): the positions of the values of
      a row, from the largest. *)
  Variable order : vec -> list nat.

  (** The slice [[:num]] of Python: a negative number leaves out the last ones. *)
  Definition slice (cols : nat) (num : Z) : nat :=
    if (0 <=? num)%Z then Z.to_nat num else Z.to_nat (Z.of_nat cols + num).

  (** Lines 15-16: when all points are used, the coefficients are divided by the sums over [dim=0].
      A column which sums to zero is divided by zero: no number is returned anywhere ([None]). *)
  Definition column_sums (cols : nat) (coefficients : mat) : vec := map (fun l => sum (column l coefficients)) (seq 0 cols).
  Definition old_all (cols : nat) (coefficients x : mat) : list (option vec) :=
    let s := column_sums cols coefficients in
    if existsb (fun v => if Req_EM_T v 0 then true else false) s then map (fun _ => None) coefficients
    else map (fun row => Some (map (fun j => dot (zipw Rdiv row s) (column j x)) (seq 0 (width x)))) coefficients.

  (** Lines 19-25: one point.  With no neighbour [torch.einsum] sums nothing and gives zeros. *)
  Definition old_row (cols : nat) (x : mat) (num : Z) (row : vec) : option vec :=
    let idx := firstn (slice cols num) (order row) in
    let near := map (fun i => nth i row 0) idx in
    match idx with
    | [] => Some (map (fun _ => 0) (seq 0 (width x)))
    | _ => if Req_EM_T (sum near) 0 then None
           else Some (map (fun j => dot (weights near) (column j (pick x idx))) (seq 0 (width x)))
    end.

  (** [kerch.preimage.smoother] (preimage/smoother.py:4-26).  [cols] is the number of columns of the
      coefficients; [torch.vstack] (line 26) refuses an empty list. *)
  Definition old_smoother (cols : nat) (coefficients x : mat) (num : Z) : result (list (option vec)) :=
    if negb (Nat.eqb cols (length x)) then Err EAssertionError
    else if (Z.of_nat cols <=? num)%Z then Ok (old_all cols coefficients x)
    else match coefficients with
         | [] => Err ERuntimeError
         | _ => Ok (map (old_row cols x num) coefficients)
         end.
End OldPreimage.

(** [kerch.preimage.knn] (preimage/knn.py:3-19) up to its first line, where a single number is
    unpacked into two; [shape] is that of the coefficients. *)
Definition old_knn (shape : list nat) : result mat :=
  match shape with
  | [] => Err EIndexError
  | _ => Err ETypeError
  end.
(** [kerch.preimage.iterative] and [kerch.preimage.ridge_regression] (preimage/iterative.py:3-4,
    preimage/ridge_regression.py:3-4). *)
Definition old_iterative (num_iter : Z) : result mat := Err ENotImplemented.
Definition old_ridge_regression : result mat := Err ENotImplemented.
