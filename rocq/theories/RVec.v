(** Vectors and matrices of real numbers, as lists and lists of rows, and the
    tensor operations the toolbox applies to them.  Floating-point numbers are
    idealised as real numbers.  Definitions only. *)
From Coq Require Export Reals List Lia Lra Psatz.
Export ListNotations.
Open Scope R_scope.

Definition vec : Type := list R.
Definition mat : Type := list vec.

(** [EPS] ([kerch/utils/type.py:75]; modules import its value at load time). *)
Definition EPS : R := / 10 ^ 7.

(** [torch.sum], [torch.mean], [torch.min], [torch.max] of a non-empty vector. *)
Definition sum (l : vec) : R := fold_right Rplus 0 l.
Definition mean (l : vec) : R := sum l / INR (length l).
Definition lmin (l : vec) : R := match l with [] => 0 | a :: l' => fold_right Rmin a l' end.
Definition lmax (l : vec) : R := match l with [] => 0 | a :: l' => fold_right Rmax a l' end.

(** [torch.std] with Bessel's correction, for at least two elements. *)
Definition variance (l : vec) : R := sum (map (fun x => (x - mean l) ^ 2) l) / (INR (length l) - 1).
Definition std (l : vec) : R := sqrt (variance l).

(** Elementwise operations of two vectors (or of two columns) of the same length. *)
Fixpoint zipw {A B C : Type} (f : A -> B -> C) (a : list A) (b : list B) : list C :=
  match a, b with
  | x :: a', y :: b' => f x y :: zipw f a' b'
  | _, _ => []
  end.

Definition dot (a b : vec) : R := sum (zipw Rmult a b).
(** [torch.norm(., dim=1)] of one row. *)
Definition norm (a : vec) : R := sqrt (dot a a).

(** Columns, [dim=0] reductions, transposition, diagonal. *)
Definition column (j : nat) (m : mat) : vec := map (fun r => nth j r 0) m.
Definition width (m : mat) : nat := match m with [] => O | r :: _ => length r end.
Definition colwise (f : vec -> R) (m : mat) : vec := map (fun j => f (column j m)) (seq 0 (width m)).
Definition transpose (m : mat) : mat := map (fun j => column j m) (seq 0 (width m)).
Definition diag (m : mat) : vec := map (fun i => nth i (nth i m []) 0) (seq 0 (length m)).

(** [a @ b.T]. *)
Definition gram (a b : mat) : mat := map (fun x => map (dot x) b) a.

(** All rows have [d] elements. *)
Definition rect (d : nat) (m : mat) : Prop := Forall (fun r => length r = d) m.
