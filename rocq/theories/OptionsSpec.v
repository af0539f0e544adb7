(** Which value an option should have. *)
From Verif Require Import Base Classes Abstract AbstractSpec Options.
Open Scope nat_scope.
Open Scope string_scope.
Open Scope list_scope.

Definition names_read (l : layer) : list string := map fst (l_before l ++ l_after l).
(** The options that a constructor keeps from the next ones. *)
Definition kept (tb : string -> layer) (c : string) : list string :=
  map fst (filter (fun r => match snd r with Some _ => true | None => false end) (l_before (tb c))) ++ dkeys (forced c).
(** Some class before [c] keeps the option [n] for itself. *)
Fixpoint hidden (tb : string -> layer) (mro : cls) (c n : string) : bool :=
  match mro with
  | [] => false
  | x :: rest => if String.eqb x c then false else smem n (kept tb x) || hidden tb rest c n
  end.
(** The default of the option [n] as read by [c]: that of the first class of the chain that has
    one, that of the reading itself if no class up to [c] has one. *)
Definition own_default (l : layer) (n : string) : option value :=
  match dget (l_before l ++ l_after l) n with Some d => d | None => None end.
Fixpoint default (tb : string -> layer) (mro : cls) (c n : string) : option value :=
  match mro with
  | [] => None
  | x :: rest => match dget (l_defaults (tb x)) n with
                 | Some d => Some d
                 | None => if String.eqb x c then own_default (tb c) n else default tb rest c n
                 end
  end.
(** No constructor reads an option twice. *)
Definition reads_once (tb : string -> layer) (mro : cls) : Prop := forall c, In c mro -> NoDup (names_read (tb c)).
(** What is read by the classes of the chain. *)
Definition all_reads (tb : string -> layer) (mro : cls) : list (string * string) :=
  flat_map (fun c => map (fun n => (c, n)) (names_read (tb c))) mro.
(** Every option that is read without a default has one by then. *)
Definition defined (tb : string -> layer) (mro : cls) : Prop := forall c n, In c mro -> In (n, None) (l_before (tb c) ++ l_after (tb c)) -> In n (dkeys (l_defaults (tb c))).

(** The classes of the objects: kernels, and levels with a kernel. *)
Definition levels_created : list string := ["KPCA"; "LSSVM"; "Ridge"].
Definition kernel_objects : list (result cls) := flat_map (fun k => map (kerch_kernel k) distance_choices) (plain_kernels ++ distance_kernels).
Definition level_objects : list (result cls) := flat_map (fun l => flat_map (fun k => map (kerch_level l k) distance_choices) (plain_kernels ++ distance_kernels)) levels_created.
Definition objects : list cls := flat_map (fun r => match r with Ok c => [c] | Err _ => [] end) (kernel_objects ++ level_objects).

(** The default that a class gives to what it reads, itself. *)
Definition local_default (l : layer) (n : string) : option value :=
  match dget (l_defaults l) n with Some d => Some d | None => own_default l n end.
(** The options that the documentation announces as neglected, with the only values that the
    constructor accepts: "This value will be neglected", "The bias parameter is overwritten". *)
Definition neglected (c : string) : option (string * list value) :=
  if String.eqb c "RBF" then Some ("squared", [VNone; VTrue])
  else if String.eqb c "Laplacian" then Some ("squared", [VNone; VFalse])
  else if String.eqb c "Ridge" then Some ("requires_bias", [VNone; VFalse]) else None.
(** The options of the caller contain none of these with another value. *)
Definition nothing_to_neglect (mro : cls) (kw : dict value) : Prop :=
  forall c n vs v, In c mro -> neglected c = Some (n, vs) -> dget kw n = Some v -> In v vs.

(** The one option that is not the one of the caller: [Exponential] reads [squared], and [RBF] and
    [Laplacian] decide it. *)
Definition overruled (mro : cls) (c n : string) : bool :=
  String.eqb n "squared" && String.eqb c "Exponential" && (smem "RBF" mro || smem "Laplacian" mro).
(** The default of each option is that of the class that reads it, except for the bias of [LSSVM]. *)
Definition documented_default (mro : cls) (c n : string) : option value :=
  if String.eqb n "requires_bias" && smem "LSSVM" mro && negb (smem "Ridge" mro) then Some VTrue
  else local_default (layer_of c) n.
