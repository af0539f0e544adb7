(** The distances offered by name, and the kernels that are normalised by nature
    (select_distance.py:9-12 and the documentation of the kernels). *)
From Verif Require Import Base RVec KernelR Beautify.
Open Scope string_scope.

Inductive offer : Type := Gives (d : option R -> option distance) (missing : exn) | Missing (e : exn).
Definition distances : list (string * offer) :=
  [ ("euclidean", Gives (fun _ => Some Euclidean) EValueError);
    ("manhattan", Gives (fun _ => Some Manhattan) EValueError);
    ("chebyshev", Gives (fun _ => Some Chebyshev) EValueError);
    ("minkowski", Gives (option_map Minkowski) EValueError);
    ("wasserstein", Missing ENotImplemented) ].
Definition offered_as (o : offer) (order : option R) : result distance :=
  match o with
  | Gives d e => match d order with Some d => Ok d | None => Err e end
  | Missing e => Err e
  end.
