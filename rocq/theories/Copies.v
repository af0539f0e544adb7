(** Deep copies of kernels and levels ([copy.deepcopy], on which [torch.nn.Module] relies), and
    the parameters that the copies compute with.  Definitions only.

    Objects are in a heap; the values of their attributes are numbers, other objects, or functions
    written in a method, which read the object of that method ([self]).  [copy.deepcopy] copies
    the objects that are reached, each once, and keeps functions as they are.  Simplification:
    here, all the objects of the heap are copied, also those that are not reached; nothing can
    read these. *)
From Verif Require Import Base.
Open Scope nat_scope.
Open Scope string_scope.
Open Scope list_scope.

Section Copies.
  Context {V : Type}.
  Inductive value : Type := Data (v : V) | Ref (a : nat) | Closure (a : nat).
  Definition record := list (string * value).
  Definition heap := list record.

  Fixpoint field (r : record) (f : string) : option value :=
    match r with
    | [] => None
    | (g, v) :: r' => if String.eqb g f then Some v else field r' f
    end.
  (** Reading [x.f.g...]; a function reads the attributes of its object. *)
  Fixpoint read (h : heap) (a : nat) (path : list string) : option V :=
    match path with
    | [] => None
    | f :: p =>
        match nth_error h a with
        | None => None
        | Some r =>
            match field r f with
            | None => None
            | Some (Data v) => match p with [] => Some v | _ => None end
            | Some (Ref b) => read h b p
            | Some (Closure b) => read h b p
            end
        end
    end.
  (** Changing the number held by an attribute (a parameter that is assigned or trained). *)
  Fixpoint set_field (r : record) (f : string) (v : V) : record :=
    match r with
    | [] => []
    | (g, w) :: r' => if String.eqb g f then (g, match w with Data _ => Data v | _ => w end) :: r' else (g, w) :: set_field r' f v
    end.
  Fixpoint set_at (h : heap) (a : nat) (f : string) (v : V) : heap :=
    match h, a with
    | [], _ => []
    | r :: h', O => set_field r f v :: h'
    | r :: h', S a' => r :: set_at h' a' f v
    end.
  Record assign : Type := Assign { as_obj : nat; as_field : string; as_val : V }.
  Definition assigns (h : heap) (ws : list assign) : heap :=
    fold_left (fun h w => set_at h (as_obj w) (as_field w) (as_val w)) ws h.

  (** The copy of the object at [a] is at [a + length h]. *)
  Definition shift (n : nat) (v : value) : value :=
    match v with Data v => Data v | Ref b => Ref (b + n) | Closure b => Closure b end.
  Definition shift_record (n : nat) (r : record) : record := map (fun fv => (fst fv, shift n (snd fv))) r.
  Definition deepcopy (h : heap) (a : nat) : heap * nat :=
    (h ++ map (shift_record (List.length h)) h, a + List.length h).
End Copies.
Arguments value V : clear implicits.
Arguments record V : clear implicits.
Arguments heap V : clear implicits.
Arguments assign V : clear implicits.

(** [Sigmoid.__init__] (kernel/generic/sigmoid.py:41-49), at the address [n]: the parameters, and
    a function of them; [_implicit] (70-73) calls the function. *)
Definition sigmoid {V} (n : nat) (a b : V) : record V := [("_a", Data a); ("_b", Data b); ("_linear", Closure n)].
Definition sigmoid_kernel {V} (h : heap V) (k : nat) : option V * option V :=
  (read h k ["_linear"; "_a"], read h k ["_linear"; "_b"]).
(** [Polynomial] (kernel/generic/polynomial.py:216-217) reads its attributes. *)
Definition polynomial {V} (alpha beta : V) : record V := [("_alpha", Data alpha); ("_beta", Data beta)].
Definition polynomial_kernel {V} (h : heap V) (k : nat) : option V * option V := (read h k ["_alpha"], read h k ["_beta"]).
