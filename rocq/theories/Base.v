(** Shared vocabulary of the discrete models: Python exceptions as values and
    Python dictionaries.  Nothing in this file is specific to kerch. *)
From Coq Require Export List Arith ZArith Bool String Ascii Lia.
Export ListNotations.
Open Scope list_scope.

(** Python exception classes that the modelled code can raise.  Messages are
    not modelled. *)
Inductive exn : Type :=
| ETypeError | EAttributeError | EAssertionError | EKeyError | ENameError
| EIndexError | EValueError | ERuntimeError | ENotInitialized | ENotImplemented
| EBijection | EImplicit | EExplicit | ERepresentation | EKerch | EDivisionByZero
| EOther (n : nat).

(** The outcome of a Python call: a value or a raised exception. *)
Inductive result (A : Type) : Type :=
| Ok (a : A)
| Err (e : exn).
Arguments Ok {A} a.
Arguments Err {A} e.

Definition bind {A B} (r : result A) (f : A -> result B) : result B :=
  match r with Ok a => f a | Err e => Err e end.

Definition is_ok {A} (r : result A) : bool :=
  match r with Ok _ => true | Err _ => false end.

(** Python's insertion-ordered [dict] with string keys. *)
Definition dict (V : Type) : Type := list (string * V).

Section Dict.
  Context {V : Type}.

  (** [d.get(k)] *)
  Fixpoint dget (d : dict V) (k : string) : option V :=
    match d with
    | [] => None
    | (k', v) :: d' => if String.eqb k' k then Some v else dget d' k
    end.

  (** [k in d] *)
  Definition dmem (d : dict V) (k : string) : bool :=
    match dget d k with Some _ => true | None => false end.

  (** [d[k] = v]: an existing key keeps its position, a new key goes last. *)
  Fixpoint dset (d : dict V) (k : string) (v : V) : dict V :=
    match d with
    | [] => [(k, v)]
    | (k', v') :: d' => if String.eqb k' k then (k', v) :: d' else (k', v') :: dset d' k v
    end.

  (** [d.pop(k)] for a key that may be absent (callers test membership). *)
  Fixpoint dpop (d : dict V) (k : string) : dict V :=
    match d with
    | [] => []
    | (k', v') :: d' => if String.eqb k' k then d' else (k', v') :: dpop d' k
    end.

  (** [d.keys()] *)
  Definition dkeys (d : dict V) : list string := map fst d.
End Dict.

(** A Python string seen as the iterable of its one-character strings. *)
Fixpoint chars (s : string) : list string :=
  match s with
  | EmptyString => []
  | String c s' => String c EmptyString :: chars s'
  end.

(** [x in l] for a list of strings. *)
Definition smem (x : string) (l : list string) : bool := existsb (String.eqb x) l.
