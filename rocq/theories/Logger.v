(** Logging levels ([kerch/feature/logger.py], [kerch/feature/module.py]).  Definitions only. *)
From Verif Require Import Base.
Open Scope string_scope.
Open Scope list_scope.

(** An object: the name of its class, the argument [logger_name] and, for modules, the children
    that are loggers themselves.  Children that are not loggers are left out: the setter does not
    look below them. *)
Inductive logged : Type := Logged (cls : string) (given : option string) (children : list logged).

(** The name of the logger (logger.py:37-44). *)
Definition log_name (o : logged) : string :=
  match o with Logged cls given _ =>
    match given with
    | Some n => if String.eqb cls "Logger" then n else (n ++ " " ++ cls)%string
    | None => cls
    end
  end.

(** [logging.getLogger] gives the same logger to all who use the same name, for the whole program.
    The state: the levels of the loggers and the default level of the package
    ([_GLOBALS["LOG_LEVEL"]]).  A logger that does not exist yet has level 0. *)
Record logging : Type := Logging { lg_levels : dict Z; lg_default : Z }.
Definition level_of (s : logging) (name : string) : Z := match dget (lg_levels s) name with Some l => l | None => 0%Z end.
Definition put_level (s : logging) (name : string) (l : Z) : logging := Logging (dset (lg_levels s) name l) (lg_default s).

(** The setter (logger.py:95-99, module.py:40-47).  Simplification: levels are integers. *)
Definition resolve (s : logging) (l : option Z) : Z := match l with Some l => l | None => lg_default s end.
Fixpoint put_all (s : logging) (o : logged) (l : Z) {struct o} : logging :=
  match o with Logged cls given children =>
    (fix down (s : logging) (cs : list logged) : logging :=
       match cs with [] => s | c :: cs' => down (put_all s c l) cs' end)
      (put_level s (log_name (Logged cls given children)) l) children
  end.
Definition set_level (s : logging) (o : logged) (l : option Z) : logging := put_all s o (resolve s l).
(** The getter (logger.py:85-93). *)
Definition get_level (s : logging) (o : logged) : Z := level_of s (log_name o).
(** The constructor (36-50): at this time an object has no children. *)
Definition new_object (s : logging) (o : logged) (l : option Z) : logging := put_level s (log_name o) (resolve s l).
(** [set_logging_level] (105-129) and [get_logging_level] (132-148); [_GLOBAL_LOGGER] (102). *)
Definition global_logger : logged := Logged "Logger" (Some "global") [].
Definition set_default (s : logging) (l : Z) : logging := set_level (Logging (lg_levels s) l) global_logger (Some l).
Definition get_default (s : logging) : Z := lg_default s.

Inductive lop : Type :=
| LNew (o : logged) (l : option Z)
| LSet (o : logged) (l : option Z)
| LDefault (l : Z).
Definition lstep (s : logging) (op : lop) : logging :=
  match op with
  | LNew o l => new_object s o l
  | LSet o l => set_level s o l
  | LDefault l => set_default s l
  end.
Definition lrun (s : logging) (ops : list lop) : logging := fold_left lstep ops s.
(** When the package is imported (__init__.py:10-12, logger.py:102). *)
Definition linit : logging := new_object (Logging [] 30%Z) global_logger None.
