(** The command line ([kerch/script/_parser.py], [main.py], [expe.py]) and the constructor of the
    trainer that it calls ([kerch/train/Trainer.py:17-81]).  Definitions only.

    The content of a file is what [yaml.safe_load] returns; mappings have string keys.  Creating a
    data set, creating a model and training are other parts of the library: they appear as
    functions that may fail. *)
From Verif Require Import Base Factory Lazy Trainer.
Open Scope string_scope.
Open Scope list_scope.

(** *** The arguments (_parser.py:7-30).  An argument is already split: the name of an action, a file
    name after [-f] or [--filename], [-v] or [--verbose], [--version]. *)
Inductive arg : Type := Action (s : string) | File (s : string) | Verbose | Version.
Record args : Type := Args { a_action : option string; a_extra : bool; a_file : option string; a_verbose : bool }.
Inductive parsed : Type := Exit (code : nat) | Parsed (action : string) (file : option string) (verbose : bool).
Definition no_args : args := Args None false None false.
(** [parse_args] reads from left to right: an unknown action or [--version] end the program at once,
    a second action is reported at the end. *)
Fixpoint parse_from (a : args) (l : list arg) : parsed :=
  match l with
  | [] => match a_action a with
          | None => Exit 2
          | Some s => if a_extra a then Exit 2 else Parsed s (a_file a) (a_verbose a)
          end
  | Action s :: l' => match a_action a with
                      | Some s' => parse_from (Args (Some s') true (a_file a) (a_verbose a)) l'
                      | None => if String.eqb s "expe" then parse_from (Args (Some s) (a_extra a) (a_file a) (a_verbose a)) l' else Exit 2
                      end
  | File s :: l' => parse_from (Args (a_action a) (a_extra a) (Some s) (a_verbose a)) l'
  | Verbose :: l' => parse_from (Args (a_action a) (a_extra a) (a_file a) true) l'
  | Version :: _ => Exit 0
  end.
Definition parse (l : list arg) : parsed := parse_from no_args l.

(** *** The content of a file *)
Inductive yval : Type :=
| YNull | YBool (b : bool) | YInt (z : Z) | YFloat (num : Z) (den : positive) | YStr (s : string)
| YList (l : list yval) | YMap (d : list (string * yval)).
(** [v['k']] and [f( **v )] *)
Definition subscript (v : yval) (k : string) : result yval :=
  match v with YMap d => match dget d k with Some x => Ok x | None => Err EKeyError end | _ => Err ETypeError end.
Definition unpack (v : yval) : result (dict yval) := match v with YMap d => Ok d | _ => Err ETypeError end.

(** [filename[:-len('.yaml')]] (expe.py:10) *)
Definition expe_name (filename : string) : string := substring 0 (String.length filename - 5) filename.

(** *** What a run does, in order *)
Inductive event : Type :=
| Said (s : string)
| DataLoaded (cls : string) (options : dict yval)
| ModelLoaded (cls : string) (options : dict yval)
| TrainerMade (options : dict yval)
| Trained.

(** *** The constructor of the trainer *)
Definition to_bsize (v : yval) : bsize :=
  match v with YStr s => BStr s | YInt z => BInt z | YBool b => BBool b | _ => BOther end.
Definition option_or (d : dict yval) (k : string) (v : yval) : yval := match dget d k with Some x => x | None => v end.
(** The setters of [problem] (36-46), [batch_size] (65-81) and [epochs] (56-59). *)
Definition set_problem (v : yval) : result unit :=
  match v with
  | YStr s => if String.eqb s "regression" then Ok tt
              else if String.eqb s "classification" then Err ENotImplemented else Err EAssertionError
  | _ => Err EAssertionError
  end.
Definition set_epochs (v : yval) : result unit :=
  match v with
  | YInt z => if (0 <? z)%Z then Ok tt else Err EAssertionError
  | YBool b => if b then Ok tt else Err EAssertionError
  | YFloat n _ => if (0 <? n)%Z then Ok tt else Err EAssertionError
  | _ => Err ETypeError
  end.
(** [Trainer.__init__] (17-30) with a training set of [num] points; the remaining options are stored as
    they are and the unknown ones are ignored. *)
Definition trainer_init (num : nat) (o : dict yval) : result unit :=
  bind (set_problem (option_or o "problem" (YStr "regression"))) (fun _ =>
  bind (fst (set_batch_size num (Batching [] None) (to_bsize (option_or o "batch_size" (YStr "all"))))) (fun _ =>
  set_epochs (option_or o "epochs" (YInt 100)))).
(** The call [train.Trainer(model=…, learning_set=…, verbose=…, expe_name=…, **o)] (expe.py:22-23): an
    argument that is given twice is an error. *)
Definition trainer_call (num : nat) (verbose : bool) (name : string) (o : dict yval) : result (dict yval) :=
  if existsb (dmem o) ["model"; "learning_set"; "verbose"; "expe_name"] then Err ETypeError
  else bind (trainer_init num o) (fun _ => Ok (("verbose", YBool verbose) :: ("expe_name", YStr name) :: o)).

Section Run.
(** The files; the constructors of the data sets (which give the number of training points) and of the
    models; the training; and the attribute [kerch.train.Trainer]. *)
Context (read : string -> result yval) (mkdata : string -> dict yval -> result nat)
        (mkmodel : string -> dict yval -> result unit) (fit : dict yval -> result unit)
        (trainer_attr : state -> result unit).

Definition trace (A : Type) : Type := (list event * result A)%type.
Definition ret {A} (a : A) : trace A := ([], Ok a).
Definition lift {A} (r : result A) : trace A := ([], r).
Definition emit (e : event) : trace unit := ([e], Ok tt).
Definition andthen {A B} (t : trace A) (f : A -> trace B) : trace B :=
  match snd t with Ok a => let u := f a in (fst t ++ fst u, snd u) | Err e => (fst t, Err e) end.
Definition say (verbose : bool) (s : string) : trace unit := if verbose then emit (Said s) else ret tt.

(** [data.factory( **section )] (data/factory.py:3-24): the class is found and created with the other options. *)
Definition load_data (o : dict yval) : trace nat :=
  match option_or o "dataset" (YStr "gaussians") with
  | YStr s => andthen (lift (data_factory s)) (fun c =>
              andthen (lift (mkdata c (dpop o "dataset"))) (fun n =>
              andthen (emit (DataLoaded c (dpop o "dataset"))) (fun _ => ret n)))
  | _ => lift (Err EAttributeError)
  end.
(** [model.factory( **section )] (model/factory.py:4-34), in a process that used the names of [s]. *)
Definition load_model (s : state) (o : dict yval) : trace state :=
  match option_or o "model_type" (YStr "rkm") with
  | YStr ty => let '(r, s') := model_step s (CreateModel ty) in
               andthen (lift (bind r (fun _ => model_factory ty))) (fun c =>
               andthen (lift (mkmodel c (dpop o "model_type"))) (fun _ =>
               andthen (emit (ModelLoaded c (dpop o "model_type"))) (fun _ => ret s')))
  | _ => lift (Err EAttributeError)
  end.

(** [expe.run] (expe.py:6-28); [open(None)] is a [TypeError]. *)
Definition expe_run (s : state) (verbose : bool) (filename : option string) : trace unit :=
  match filename with
  | None => lift (Err ETypeError)
  | Some file =>
      andthen (lift (read file)) (fun doc =>
      let name := expe_name file in
      andthen (say verbose "Loading data...") (fun _ =>
      andthen (lift (bind (subscript doc "data") unpack)) (fun d =>
      andthen (load_data d) (fun num =>
      andthen (say verbose "Done") (fun _ =>
      andthen (say verbose "Loading model...") (fun _ =>
      andthen (lift (bind (subscript doc "model") unpack)) (fun m =>
      andthen (load_model s m) (fun s' =>
      andthen (say verbose "Done") (fun _ =>
      andthen (say verbose "Initializing training...") (fun _ =>
      andthen (lift (trainer_attr s')) (fun _ =>
      andthen (lift (bind (subscript doc "train") unpack)) (fun t =>
      andthen (lift (trainer_call num verbose name t)) (fun o =>
      andthen (emit (TrainerMade o)) (fun _ =>
      andthen (say verbose "Done") (fun _ =>
      andthen (say verbose "Start training...") (fun _ =>
      andthen (lift (fit o)) (fun _ =>
      andthen (emit Trained) (fun _ =>
      say verbose "Model trained"))))))))))))))))))
  end.
(** [main.run] (main.py:6-13) once the arguments are parsed. *)
Definition main_run (s : state) (l : list arg) : parsed * trace unit :=
  match parse l with
  | Exit n => (Exit n, ret tt)
  | Parsed a f v => (Parsed a f v, andthen (emit (Said a)) (fun _ => expe_run s v f))
  end.
End Run.

(** [kerch.train.Trainer] as it is in the package. *)
Definition trainer_attr_as_written (s : state) : result unit :=
  bind (fst (model_step s (UseTrain "Trainer"))) (fun _ => Ok tt).
