(** Casting inputs ([kerch/utils/cast.py]).  Definitions only.

    An array is its shape with its entries in row-major order.  Element types and devices are not
    modelled; a number or a list of numbers is the array that [torch.tensor] makes of it. *)
From Verif Require Import Base.
Open Scope nat_scope.
Open Scope string_scope.
Open Scope list_scope.

Section C.
Context {A : Type}.
Record array : Type := Array { a_shape : list nat; a_data : list A }.

(** [unsqueeze(k)]: a dimension of size one is inserted; the entries are not moved. *)
Definition unsqueeze (k : nat) (x : array) : array :=
  Array (firstn k (a_shape x) ++ 1 :: skipn k (a_shape x)) (a_data x).
(** [squeeze()]: the dimensions of size one are removed. *)
Definition squeeze (x : array) : array := Array (filter (fun d => negb (Nat.eqb d 1)) (a_shape x)) (a_data x).

(** The part common to [castf] (35-43) and [casti] (75-83), when [tensor] is true. *)
Definition to_matrix (x : array) : result array :=
  let dim := List.length (a_shape x) in
  let '(x, dim) := if Nat.eqb dim 0 then (unsqueeze 0 x, 1) else (x, dim) in
  if Nat.eqb dim 1 then Ok (unsqueeze 1 x)
  else if Nat.ltb 2 dim then Err ENameError
  else Ok x.
(** [castf] (7-45). *)
Definition castf (x : option array) (tensor : bool) : result (option array) :=
  match x with
  | None => Ok None
  | Some x => if tensor then bind (to_matrix x) (fun y => Ok (Some y)) else Ok (Some x)
  end.
(** [casti] (47-85). *)
Definition casti (x : option array) (tensor : bool) : result (option array) :=
  match x with
  | None => Ok None
  | Some x => if tensor then bind (to_matrix x) (fun y => Ok (Some (squeeze y))) else Ok (Some (squeeze x))
  end.
End C.
Arguments array A : clear implicits.

(** [check_representation] (88-111); values that are not strings are not modelled. *)
Definition check_representation (rep default : option string) : result string :=
  let rep := match rep, default with None, Some d => Some d | _, _ => rep end in
  match rep with
  | Some r => if smem r ["primal"; "dual"] then Ok r else Err ERepresentation
  | None => Err ERepresentation
  end.
