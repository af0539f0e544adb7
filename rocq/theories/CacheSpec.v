(** Small independent vocabulary in which the cache properties are stated. *)
From Verif Require Import Base Cache.
Open Scope string_scope.
Open Scope Z_scope.

Section Spec.
  Context {V : Type}.

  (** The object's dictionary is a dictionary: no key occurs twice. *)
  Definition wf (c : cache V) : Prop := NoDup (dkeys (c_entries c)).

  (** What is stored under a key. *)
  Definition stored (c : cache V) (k : string) : option (entry V) := dget (c_entries c) k.

  (** A level name kerch documents. *)
  Definition known_name (s : string) : Prop :=
    In s ["none"; "light"; "normal"; "heavy"; "total"].

  Definition known_level (l : option lvl) : Prop :=
    match l with Some (LStr s) => known_name s | _ => True end.

  (** A level is numeric (the normal case). *)
  Definition numeric (l : lvl) : Prop := exists n, l = LInt n.

  (** Numeric value of a level (meaningful on numeric levels). *)
  Definition rank (l : lvl) : Z := match l with LInt n => n | LStr _ => -1 end.

  (** [o] is admissible in state [s]: level names are documented ones, and the
      inputs only change for computations of which no result is held. *)
  Definition admissible (s : state V) (o : op V) : Prop :=
    match o with
    | OGet _ a => known_name (a_default_level a)
    | OSetLevel l => known_level l
    | OWorld w => forall k e, stored (s_cache s) k = Some e -> w k = s_world s k
    | _ => True
    end.

  Fixpoint admissible_history (s : state V) (os : list (op V)) : Prop :=
    match os with
    | [] => True
    | o :: os' => admissible s o /\ admissible_history (snd (step s o)) os'
    end.

  (** A read shows what the computation gives in the world of that moment. *)
  Definition read_is_fresh (x : (string -> result V) * out V) : Prop :=
    match x with
    | (w, ORead k r) => r = w k
    | (_, ODone) => True
    end.

  Definition no_world_change (o : op V) : Prop :=
    match o with OWorld _ => False | _ => True end.

  (** Every stored element is filed at most at the object's level. *)
  Definition level_bounded (c : cache V) : Prop :=
    forall k e, stored c k = Some e -> rank (e_level e) <= rank (c_level c).

  (** Histories without forced writes in which the level is never lowered. *)
  Definition no_force_no_lowering (s : state V) (o : op V) : Prop :=
    match o with
    | OGet _ a => a_force a = false /\ known_name (a_default_level a)
    | OSetLevel l =>
        known_level l /\ rank (c_level (s_cache s)) <= rank (get_level (c_level (s_cache s)) l)
    | _ => True
    end.

  Fixpoint history_all (P : state V -> op V -> Prop) (s : state V) (os : list (op V)) : Prop :=
    match os with
    | [] => True
    | o :: os' => P s o /\ history_all P (snd (step s o)) os'
    end.
End Spec.
