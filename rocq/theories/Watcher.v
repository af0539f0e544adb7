(** Checkpoint files ([kerch/monitor/Watcher.py], [kerch/monitor/Saver.py]) and the creation of
    watchers ([kerch/monitor/factory.py]).  Definitions only.

    Importing these classes fails for the same reason as in Trainer.v; the code is modelled as it
    is written. *)
From Coq Require Import DecimalString.
From Verif Require Import Base Reports.
Open Scope nat_scope.
Open Scope string_scope.
Open Scope list_scope.

Section W.
(** [M]: states of the model. *)
Context {M : Type}.

(** The directory of the checkpoints: file names and contents. *)
Definition directory : Type := dict M.

(** [save_model] (Watcher.py:99-114): a file of the same name is overwritten. *)
Definition file_name (epoch : nat) : string := ("epoch-" ++ decimal epoch ++ ".pth")%string.
Definition save_model (d : directory) (epoch : nat) (m : M) : directory := dset d (file_name epoch) m.

(** [int(file[len('epoch-'):-len('.pth')])].  Simplification: [int] accepts digits only. *)
Definition middle (s : string) : string := substring 6 (String.length s - 10) s.
Definition parse_epoch (s : string) : result nat :=
  match NilEmpty.uint_of_string (middle s) with
  | Some (Decimal.Nil) | None => Err EValueError
  | Some u => Ok (Nat.of_uint u)
  end.
Fixpoint parse_all (l : list string) : result (list nat) :=
  match l with
  | [] => Ok []
  | s :: l' => bind (parse_epoch s) (fun n => bind (parse_all l') (fun ns => Ok (n :: ns)))
  end.

(** [finish] (Watcher.py:116-129): the files whose name is not that of the last epoch are
    removed.  Simplification: an empty directory stands for a directory that does not exist yet
    as well; the error is [ValueError] (of [max]) in the first case and [FileNotFoundError] in the
    second, and always [ValueError] here. *)
Definition finish (d : directory) : result string * directory :=
  match parse_all (dkeys d) with
  | Err e => (Err e, d)
  | Ok [] => (Err EValueError, d)
  | Ok (n :: ns) =>
      let last := fold_left Nat.max ns n in
      (Ok (file_name last), filter (fun kv => String.eqb (fst kv) (file_name last)) d)
  end.

(** [Saver.update] (Saver.py:13-21) with the period [_num_epochs_save]; the training loop calls
    it after each epoch and [finish] after the last one (Trainer.py:221-227), [state] giving the
    state of the model after each epoch. *)
Definition update (period : nat) (d : directory) (epoch : nat) (m : M) : result directory :=
  if Nat.eqb period 0 then Err EDivisionByZero
  else Ok (if Nat.eqb (epoch mod period) 0 then save_model d epoch m else d).
Fixpoint watch_from (period : nat) (state : nat -> M) (d : directory) (epoch count : nat) : result directory :=
  match count with
  | O => Ok d
  | S c => bind (update period d epoch (state epoch)) (fun d' => watch_from period state d' (S epoch) c)
  end.
Definition watch (period : nat) (state : nat -> M) (d : directory) (epochs : nat) : result (string * directory) :=
  bind (watch_from period state d 0 epochs) (fun d' =>
  match finish d' with (Ok s, d2) => Ok (s, d2) | (Err e, _) => Err e end).
End W.
Arguments directory M : clear implicits.

(** *** Creating a watcher *)

(** A call: the number of positional arguments and the names of the keyword arguments. *)
Record call : Type := Call { c_positional : nat; c_keywords : list string }.

(** The constructor of a watcher (Watcher.py:34-58); the result is the saving period.  The
    parameters are [model], [opt], [expe_name] and [verbose]; the other keyword arguments are
    given to [object] (35) before the periods are looked for in them (37-40).  Not modelled: the
    checks of the types of the arguments. *)
Definition parameters : list string := ["model"; "opt"; "expe_name"; "verbose"].
Definition new_watcher (c : call) : result nat :=
  if Nat.ltb (List.length parameters) (c_positional c) then Err ETypeError
  else
  let given := firstn (c_positional c) parameters in
  if existsb (fun k => smem k given) (c_keywords c) then Err ETypeError
  else if negb (forallb (fun k => smem k (given ++ c_keywords c)) ["model"; "opt"; "expe_name"]) then Err ETypeError
  else if existsb (fun k => negb (smem k parameters)) (c_keywords c) then Err ETypeError
  else Ok 1.
(** The constructor of a saver (Saver.py:10-11) has no keyword argument; that of the other
    watchers (Plotter.py:10-15, WandB.py:13-14) passes everything on. *)
Definition new_saver (c : call) : result nat :=
  match c_keywords c with [] => new_watcher c | _ => Err ETypeError end.

(** The attributes of the package [kerch]: what is assigned or imported in [__init__.py:2-40] and
    the modules of its directory. *)
Definition package_names : list string :=
  ["__version__"; "__author__"; "__credits__"; "__status__"; "__date__"; "__license__"; "_GLOBALS"; "__all__";
   "kernel"; "level"; "model"; "data"; "train"; "monitor"; "plot"; "opt"; "script"; "method";
   "set_logging_level"; "get_logging_level"; "gpu_available"; "FTYPE"; "ITYPE"; "set_ftype"; "set_itype"; "set_eps";
   "DEFAULT_KERNEL_TYPE"; "DEFAULT_CACHE_LEVEL";
   "feature"; "utils"; "transform"; "preimage"; "_cache"; "_dataholder"; "_logger"; "_module"; "_sample"; "_stochastic"].

(** [factory] and [class_factory] (factory.py:7-30), for a package with the attributes [names]:
    for [none] the class is [None], which is then called; for every other name the attribute
    [kerch.watch] is read.  [lookup]: the constructor found there by a case-insensitive search. *)
Definition make_watcher (names : list string) (lookup : string -> option (call -> result nat)) (t : string) (c : call)
  : result nat :=
  if String.eqb t "none" then Err ETypeError
  else if negb (smem "watch" names) then Err EAttributeError
  else match lookup t with None => Err ENameError | Some new => new (Call 0 (c_keywords c)) end.

(** The keyword arguments of the trainer (Trainer.py:193-194), besides those of its own argument
    [watcher]. *)
Definition trainer_keywords : list string := ["model"; "opt"; "expe_name"; "verbose"].
