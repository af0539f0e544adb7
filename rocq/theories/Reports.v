(** What a model reports about its levels ([hparams_fixed], [hparams_variable], [losses],
    [watched_properties] of [kerch/model/Model.py:56-86], four times the same code).
    Definitions only. *)
From Coq Require Import DecimalString.
From Verif Require Import Base.
Open Scope nat_scope.
Open Scope string_scope.
Open Scope list_scope.

Section R.
Context {V : Type}.

(** [str(n)] *)
Definition decimal (n : nat) : string := NilEmpty.string_of_uint (Nat.to_uint n).
(** [f"[LEVEL{num} {level.__class__.__name__}] "] *)
Definition level_prefix (num : nat) (cls : string) : string :=
  ("[LEVEL" ++ decimal num ++ " " ++ cls ++ "] ")%string.

(** [{**d, **d'}] *)
Definition merged (d d' : dict V) : dict V := fold_left (fun acc kv => dset acc (fst kv) (snd kv)) d' d.

(** The loop; a level is its class name and its own report. *)
Fixpoint report_from (num : nat) (val : dict V) (levels : list (string * dict V)) : dict V :=
  match levels with
  | [] => val
  | (cls, own) :: ls => report_from (S num) (merged val (map (fun kv => ((level_prefix num cls ++ fst kv)%string, snd kv)) own)) ls
  end.
Definition report (levels : list (string * dict V)) : dict V := report_from 0 [] levels.
End R.
