(** What a checkpoint contains: [torch.nn.Module.state_dict] and [load_state_dict], used by
    [Watcher.save_model] ([kerch/monitor/Watcher.py:104-114]).  Definitions only.

    [T]: tensors.  A torch module registers the parameters and the modules that are assigned to
    its attributes; what is inside a Python list or dictionary is not registered.
    Simplification: torch joins the names of a path with dots, and refuses names that contain
    one; here, keys are paths. *)
From Verif Require Import Base.
Open Scope nat_scope.
Open Scope string_scope.
Open Scope list_scope.

Section S.
Context {T : Type} (same_shape : T -> T -> bool).

(** An object: its parameters, its registered submodules, and the modules it reaches otherwise. *)
Inductive obj : Type := Obj (params : list (string * T)) (subs : list (string * obj)) (others : list obj).
Definition others (o : obj) : list obj := match o with Obj _ _ os => os end.

Definition path := list string.
Fixpoint path_eqb (a b : path) : bool :=
  match a, b with
  | [], [] => true
  | x :: a', y :: b' => String.eqb x y && path_eqb a' b'
  | _, _ => false
  end.
Definition saved := list (path * T).

(** [state_dict()]: own parameters, then those of the submodules. *)
Fixpoint state_dict (o : obj) : saved :=
  match o with
  | Obj ps ss _ =>
      map (fun p => ([fst p], snd p)) ps ++
      flat_map (fun s => map (fun kv => (fst s :: fst kv, snd kv)) (state_dict (snd s))) ss
  end.

Fixpoint lookup (d : saved) (k : path) : option T :=
  match d with
  | [] => None
  | (k', v) :: d' => if path_eqb k' k then Some v else lookup d' k
  end.
(** The entries of a submodule: those whose key starts with its name and a dot. *)
Fixpoint below (n : string) (d : saved) : saved :=
  match d with
  | [] => []
  | (m :: (x :: k), v) :: d' => if String.eqb m n then (x :: k, v) :: below n d' else below n d'
  | _ :: d' => below n d'
  end.

(** [load_state_dict(d)], strict: the parameters that are found with the same shape are copied,
    and then an error is raised if a key is missing, unexpected, or if a shape differs. *)
Definition load_param (d : saved) (p : string * T) : string * T :=
  (fst p, match lookup d [fst p] with
          | Some w => if same_shape (snd p) w then w else snd p
          | None => snd p
          end).
Fixpoint restore (d : saved) (o : obj) : obj :=
  match o with
  | Obj ps ss os => Obj (map (load_param d) ps) (map (fun s => (fst s, restore (below (fst s) d) (snd s))) ss) os
  end.
Definition accepts (d : saved) (o : obj) : bool :=
  forallb (fun kv => match lookup d (fst kv) with Some w => same_shape (snd kv) w | None => false end) (state_dict o) &&
  forallb (fun kv => match lookup (state_dict o) (fst kv) with Some _ => true | None => false end) d.
Definition load (d : saved) (o : obj) : result unit * obj :=
  (if accepts d o then Ok tt else Err ERuntimeError, restore d o).

(** A kerch model (kerch/model/Model.py:14-16, 97): no parameter of its own, its levels in a
    plain list. *)
Definition model_object (levels : list obj) : obj := Obj [] [] levels.
(** A level or a kernel is such an object (feature/sample.py:66, level/_View.py:57-58, ...); the
    views of a multi-view level are registered (level/multi_view/MultiView.py:76). *)
End S.
Arguments obj T : clear implicits.
Arguments saved T : clear implicits.
