(** Stacked random features ([kerch/kernel/random_features/rf_stacked.py]): a kernel that sends
    the points through a list of inner random-feature kernels.  Definitions only.

    [P]: points; [W]: the weights drawn by an inner kernel, which are handed to the model.
    [outer c x]: the sample transform of the stack, fitted to the points [c], at [x];
    [inner c x]: that of an inner kernel ([inner_sample_transform]); [feat w x]: the features of
    an inner kernel at a transformed point; the [_back] functions are what reverts them.  They
    return an exception when the widths do not match.
    Simplifications: no kernel transform is given to the stack, the sample is not trainable,
    the inner kernels are not touched through [kernel(num)], and what is cached is recomputed
    (see C18 and C20 for when that is the same). *)
From Verif Require Import Base.
Open Scope nat_scope.
Open Scope list_scope.

Section S.
Context {P W : Type}.
Context (outer inner outer_back inner_back : list P -> P -> result P) (feat feat_back : W -> P -> result P).

(** A function of one point, on all rows. *)
Fixpoint rows (f : P -> result P) (l : list P) : result (list P) :=
  match l with
  | [] => Ok []
  | p :: l' => bind (f p) (fun q => bind (rows f l') (fun qs => Ok (q :: qs)))
  end.

(** An inner kernel: its weights and its sample (of which it uses every point). *)
Record layer := Layer { l_weights : W; l_sample : list P }.
(** [phi(x)] of an inner kernel (kernel/kernel.py:196-209, random_features.py:191-195). *)
Definition layer_phi (l : layer) (x : P) : result P := bind (inner (l_sample l) x) (feat (l_weights l)).

(** The stack: its own sample, the selected indices, its [_kernels]. *)
Record stack := Stack { k_sample : list P; k_idx : list nat; k_layers : list layer }.

(** [sample[idx, :]]. *)
Fixpoint select (s : list P) (idx : list nat) : result (list P) :=
  match idx with
  | [] => Ok []
  | i :: idx' =>
      match nth_error s i with
      | Some p => bind (select s idx') (fun ps => Ok (p :: ps))
      | None => Err EIndexError
      end
  end.
(** The selected points; an empty sample is refused (feature/sample.py:118-119, 246-262). *)
Definition current (st : stack) : result (list P) :=
  match k_sample st with
  | [] => Err ENotInitialized
  | _ => select (k_sample st) (k_idx st)
  end.
(** [current_sample_projected] (feature/sample.py:146-151). *)
Definition projected (st : stack) : result (list P) := bind (current st) (fun c => rows (outer c) c).

(** The loop of [init_sample] (rf_stacked.py:38-42).  When a layer raises, it already has its new
    sample and the next ones keep the old one. *)
Fixpoint refit (s : list P) (ls : list layer) : list layer * result unit :=
  match ls with
  | [] => ([], Ok tt)
  | l :: ls' =>
      let l' := Layer (l_weights l) s in
      match rows (layer_phi l') s with
      | Ok s' => let (ls'', r) := refit s' ls' in (l' :: ls'', r)
      | Err e => (l' :: ls', Err e)
      end
  end.
Definition all_idx (s : list P) : list nat := seq 0 (List.length s).
Definition idx_or (s : list P) (idx : option (list nat)) : list nat :=
  match idx with Some i => i | None => all_idx s end.
(** [init_sample(sample, idx_sample)] with a sample (rf_stacked.py:37-42, feature/sample.py:158-203). *)
Definition init_sample (s : list P) (idx : option (list nat)) (st : stack) : stack * result unit :=
  let st1 := Stack s (idx_or s idx) (k_layers st) in
  match projected st1 with
  | Err e => (st1, Err e)
  | Ok p => let (ls, r) := refit p (k_layers st) in (Stack s (idx_or s idx) ls, r)
  end.

(** [_append] (rf_stacked.py:24-35), for given weights. *)
Definition append (r : result stack) (w : W) : result stack :=
  bind r (fun st =>
  bind (match rev (k_layers st) with
        | [] => projected st
        | l :: _ => rows (layer_phi l) (l_sample l)
        end) (fun s => Ok (Stack (k_sample st) (k_idx st) (k_layers st ++ [Layer w s])))).
(** The constructor (rf_stacked.py:8-18): the sample is initialised, without any layer yet, by the
    constructor of the samples (feature/sample.py:56-70), and the layers are appended.  Without a
    sample, [init_sample] does nothing but log and the projected sample is asked for. *)
Definition construct (ws : list W) (s : option (list P)) (idx : option (list nat)) : result stack :=
  match s with
  | None => Err ENotInitialized
  | Some s =>
      let (st, r) := init_sample s idx (Stack [] [] []) in
      fold_left append ws (bind r (fun _ => Ok st))
  end.

(** [update_sample] (feature/sample.py:206-239), which the stack does not override. *)
Fixpoint write (s : list P) (i : nat) (v : P) : option (list P) :=
  match s, i with
  | [], _ => None
  | _ :: s', 0 => Some (v :: s')
  | p :: s', S i' => match write s' i' v with Some t => Some (p :: t) | None => None end
  end.
Fixpoint write_all (s : list P) (vs : list (nat * P)) : option (list P) :=
  match vs with
  | [] => Some s
  | (i, v) :: vs' => match write s i v with Some s' => write_all s' vs' | None => None end
  end.
Definition update_sample (vs : list P) (idx : option (list nat)) (st : stack) : stack * result unit :=
  match k_sample st with
  | [] => (st, Ok tt)
  | s =>
      let i := idx_or s idx in
      if Nat.eqb (List.length i) (List.length vs) then
        match write_all s (combine i vs) with
        | Some s' => (Stack s' (k_idx st) (k_layers st), Ok tt)
        | None => (st, Err EIndexError)
        end
      else (st, Err EAssertionError)
  end.
(** [stochastic(idx)] (feature/stochastic.py:60-105); the layers are in a list, so they are no
    children of the stack. *)
Definition stochastic (idx : option (list nat)) (st : stack) : stack :=
  Stack (k_sample st) (idx_or (k_sample st) idx) (k_layers st).

(** [_explicit] (rf_stacked.py:69-72). *)
Definition explicit (st : stack) (x : P) : result P := fold_left (fun r l => bind r (layer_phi l)) (k_layers st) (Ok x).
(** [phi(x)] and [phi()] of the stack (kernel/kernel.py:196-209). *)
Definition phi (st : stack) (x : P) : result P :=
  bind (current st) (fun c => bind (outer c x) (explicit st)).
Definition phi_sample (st : stack) : result (list P) := bind (projected st) (rows (explicit st)).

(** [explicit_preimage(phi, method='explicit')] of an inner kernel and of the stack
    (kernel/kernel.py:372-376, rf_stacked.py:74-77). *)
Definition layer_preimage (l : layer) (y : P) : result P := bind (feat_back (l_weights l) y) (inner_back (l_sample l)).
Definition preimage (st : stack) (y : P) : result P :=
  bind (fold_left (fun r l => bind r (layer_preimage l)) (rev (k_layers st)) (Ok y)) (fun z =>
  bind (current st) (fun c => outer_back c z)).

(** ** Histories *)
Inductive op :=
| OInit (s : list P) (idx : option (list nat))
| OUpdate (vs : list P) (idx : option (list nat))
| OSelect (idx : option (list nat)).
Definition step (st : stack) (o : op) : stack * result unit :=
  match o with
  | OInit s idx => init_sample s idx st
  | OUpdate vs idx => update_sample vs idx st
  | OSelect idx => (stochastic idx st, Ok tt)
  end.
Fixpoint run (st : stack) (ops : list op) : stack * list (op * result unit) :=
  match ops with
  | [] => (st, [])
  | o :: ops' => let (st1, r) := step st o in let (st2, rs) := run st1 ops' in (st2, (o, r) :: rs)
  end.
End S.
Arguments stack : clear implicits.
Arguments layer : clear implicits.
Arguments op : clear implicits.
