(** What a distance-based kernel should answer (C15, C18-C20), as a function of
    its present sample, selection and bandwidth only. *)
From Coq Require Import QArith.
From Verif Require Import Base Cache CacheSpec Tree ModuleTree Sample SampleSpec KernelState.
Open Scope string_scope.
Open Scope Z_scope.

Section Spec.
  Context {F Dm Sg Km : Type}.
  Variable transform : list (list F) -> list (list F).
  Variable no_transform : bool.
  Variable dist : list (list F) -> list (list F) -> Dm.
  Variable heur : Dm -> Sg.
  Variable kern : Sg -> Dm -> result Km.
  Notation kstate := (kstate F Dm Sg Km).

  (** Distances between the selected, transformed points. *)
  Definition true_dist (s : kstate) : result Dm :=
    bind (current_rows s) (fun rows =>
      let p := if no_transform then rows else transform rows in Ok (dist p p)).

  (** The bandwidth in force: the one assigned, or the heuristic. *)
  Definition true_sigma (s : kstate) : result Sg :=
    match k_sigma s with
    | Some x => Ok x
    | None => bind (true_dist s) (fun d => Ok (heur d))
    end.

  (** The kernel matrix of the selected points with the bandwidth in force. *)
  Definition true_K (s : kstate) : result Km :=
    bind (true_dist s) (fun d => bind (true_sigma s) (fun sg => kern sg d)).

  (** A reading shows the truth of its moment. *)
  Definition reading_is_true (x : kstate * kout Sg Km) : Prop :=
    match snd x with
    | OutK r => r = true_K (fst x)
    | OutSigma r => r = true_sigma (fst x)
    | OutUnit _ => True
    end.

  (** A level assignment the user may make: [lv] says which levels are meant.  A
      sample update does not hit a trainable sample without gradient (see C15). *)
  Variable lv : option lvl -> Prop.
  Definition safe_op (s : kstate) (o : kop F Sg) : Prop :=
    match o with
    | KSetLevel l => lv l
    | KSample (SUpdate _ _) => ss_trainable (k_obj s) = false \/ ss_grad (k_obj s) <> None
    | _ => True
    end.

  (** A level at which the sample is memoised. *)
  Definition at_least_light (l : option lvl) : Prop :=
    match l with
    | None => True
    | Some (LInt n) => 1 <= n
    | Some (LStr s) => In s ["light"; "normal"; "heavy"; "total"]
    end.

  (** The operation assigns the bandwidth. *)
  Definition assigns_sigma (o : kop F Sg) : Prop := match o with KSetSigma _ => True | _ => False end.

  (** The operation neither reads nor assigns anything that needs the bandwidth. *)
  Definition needs_no_sigma (o : kop F Sg) : Prop :=
    match o with KSetSigma _ | KReadK | KReadk | KReadSigma => False | _ => True end.

  (** The sample distances are held. *)
  Definition dist_held (dkey : string) (s : kstate) : Prop := exists e, stored (k_cache s) dkey = Some e.

  (** Every step of a history is safe in its state. *)
  Variable one : Sg.
  Variable dkey : string.
  Variable orth : nat -> nat -> list (list F).
  Fixpoint safe_history (s : kstate) (os : list (kop F Sg)) : Prop :=
    match os with
    | [] => True
    | o :: os' =>
        safe_op s o /\
        safe_history (snd (kstep transform no_transform dist heur one kern dkey orth s o)) os'
    end.
End Spec.
