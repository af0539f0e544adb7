(** Vocabulary: which type was chosen last. *)
From Coq Require Import QArith.
From Verif Require Import Base Precision.
Open Scope list_scope.

(** The value of a name after some calls, given from the last to the first: what the last accepted
    call for that name set, or the default.  The smallest value has the floating type of the moment. *)
Fixpoint chosen_f (ros : list op) : dtype :=
  match ros with [] => F32 | SetF (Dtype d) :: _ => d | _ :: r => chosen_f r end.
Fixpoint chosen_i (ros : list op) : dtype :=
  match ros with [] => I32 | SetI (Dtype d) :: _ => d | _ :: r => chosen_i r end.
Fixpoint chosen_eps (ros : list op) : Q * dtype :=
  match ros with
  | [] => (1 # 10000000, F32)
  | SetEps e :: r => if Qle_bool 0 e then (e, chosen_f r) else chosen_eps r
  | _ :: r => chosen_eps r
  end.
Definition chosen (os : list op) (n : name) : value :=
  let ros := rev os in
  match n with
  | FTYPE => VType (chosen_f ros) | ITYPE => VType (chosen_i ros)
  | EPS => VEps (fst (chosen_eps ros)) (snd (chosen_eps ros))
  end.

(** Loading a module; choosing a value for a name, or the floating type the smallest value will have. *)
Definition is_load (o : op) : bool := match o with Load _ => true | _ => false end.
Definition chooses (n : name) (o : op) : bool :=
  match n, o with FTYPE, SetF _ => true | ITYPE, SetI _ => true | EPS, SetEps _ => true | _, _ => false end.

(** The floating-point types, and their widths in bits. *)
Definition floating (d : dtype) : Prop := d = F16 \/ d = F32 \/ d = F64.
Definition width (d : dtype) : nat := match d with F16 => 16 | F32 => 32 | F64 => 64 | _ => 0 end.
