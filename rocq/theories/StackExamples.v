(** Concrete stacks: points are lists of integers, a stage removes the first point of its sample
    and multiplies by its weight. *)
From Verif Require Import Base Stack StackSpec.
Open Scope Z_scope.

Fixpoint zip_sub (a b : list Z) : list Z :=
  match a, b with x :: a', y :: b' => (x - y) :: zip_sub a' b' | _, _ => [] end.
Definition shift (s : list (list Z)) (x : list Z) : result (list Z) :=
  match s with
  | [] => Err (EOther 0)
  | p :: _ => if Nat.eqb (List.length p) (List.length x) then Ok (zip_sub x p) else Err ERuntimeError
  end.
(** Weights: the expected width and a factor. *)
Definition times (w : nat * Z) (x : list Z) : result (list Z) :=
  if Nat.eqb (List.length x) (fst w) then Ok (map (Z.mul (snd w)) x) else Err ERuntimeError.
Definition asis (s : list (list Z)) (x : list Z) : result (list Z) := Ok x.

Definition two_layers : list (nat * Z) := [(2%nat, 2); (2%nat, 3)].
Definition points : list (list Z) := [[1; 0]; [4; 7]; [2; 2]].
Definition zrun := run asis shift times.
Definition zphi := phi asis shift times.
Definition zconstruct := construct asis shift times.
