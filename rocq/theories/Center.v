(** The after-step hook of an LS-SVM level ([kerch/level/single_view/LSSVM.py:41-46,162-164]).
    Definitions only.

    The dual variables are stored transposed: one row per output, one column per point. *)
From Verif Require Import Base RVec.
Open Scope R_scope.

(** [data -= v] for a matrix of [n] columns and a vector [v]: the vector is aligned with the
    last dimension, repeated if it has one element; otherwise, in place, an error. *)
Definition subtract_vector (n : nat) (data : mat) (v : vec) : result mat :=
  if Nat.eqb (List.length v) n then Ok (map (fun r => zipw Rminus r v) data)
  else match v with
       | [x] => Ok (map (map (fun y => y - x)) data)
       | _ => Err ERuntimeError
       end.

(** [_center_hidden] (41-46): the means over the points, one per output, are subtracted. *)
Definition center_hidden (n : nat) (data : mat) : result mat := subtract_vector n data (map mean data).

(** [after_step] (162-164); without dual variables a message is logged. *)
Definition after_step (n : nat) (hidden : option mat) : result unit * option mat :=
  match hidden with
  | None => (Ok tt, None)
  | Some d => match center_hidden n d with
              | Ok d' => (Ok tt, Some d')
              | Err e => (Err e, Some d)
              end
  end.
