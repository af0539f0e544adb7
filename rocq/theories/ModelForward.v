(** Evaluating a model in training and in evaluation mode ([Model.forward], [Model.train],
    [kerch/model/Model.py]).  Definitions only.  What a level computes is left open. *)
From Verif Require Import Base Cache Tree ModuleTree Sample.
Open Scope Z_scope.

Section Forward.
  Context {F V P : Type}.

  (** A level: its sample (with the selected rows), its parameters, [level_trainable] (unset
      until the level is appended to a model). *)
  Record flevel : Type := FLevel { fl_state : sstate F V; fl_par : P; fl_soft : option bool }.

  (** What a level computes: [solve()], the output on its own selected sample points,
      and the output on other points. *)
  Record behaviour : Type := Behaviour {
    b_solve : P -> tensor F -> option (list Z) -> result P;
    b_own : P -> tensor F -> option (list Z) -> result (tensor F);
    b_other : P -> tensor F -> option (list Z) -> tensor F -> result (tensor F) }.
  Variable B : behaviour.

  (** [level()] reads the sample, which must exist (sample.py:99-101); [level(x)]. *)
  Definition call_own (l : flevel) : result (tensor F) :=
    if empty_sample (fl_state l) then Err ENotInitialized
    else b_own B (fl_par l) (ss_sample (fl_state l)) (ss_idx (fl_state l)).
  Definition call (l : flevel) (x : option (tensor F)) : result (tensor F) :=
    match x with
    | None => call_own l
    | Some v => b_other B (fl_par l) (ss_sample (fl_state l)) (ss_idx (fl_state l)) v
    end.

  (** One turn of the training loop (130-137). *)
  Definition feed (idx : option (list Z)) (x : option (tensor F)) (l : flevel) : result unit * flevel :=
    let '(r, s) := match x with
                   | None => select_idx (fl_state l) (Request idx None [])
                   | Some v => update_sample (fl_state l) v idx
                   end in
    (r, FLevel s (fl_par l) (fl_soft l)).
  Definition refit (l : flevel) : result flevel :=
    match fl_soft l with
    | None => Err EAttributeError
    | Some true => Ok l
    | Some false =>
        match b_solve B (fl_par l) (ss_sample (fl_state l)) (ss_idx (fl_state l)) with
        | Err e => Err e
        | Ok p => Ok (FLevel (fl_state l) p (fl_soft l))
        end
    end.
  Fixpoint train_forward (idx : option (list Z)) (x : option (tensor F)) (ls : list flevel)
    : result (option (tensor F)) * list flevel :=
    match ls with
    | [] => (Ok x, [])
    | l :: ls' =>
        match feed idx x l with
        | (Err e, l1) => (Err e, l1 :: ls')
        | (Ok _, l1) =>
            match refit l1 with
            | Err e => (Err e, l1 :: ls')
            | Ok l2 =>
                match call_own l2 with
                | Err e => (Err e, l2 :: ls')
                | Ok y => let '(r, ls2) := train_forward idx (Some y) ls' in (r, l2 :: ls2)
                end
            end
        end
    end.
  (** The evaluation loop (139-140). *)
  Fixpoint eval_forward (x : option (tensor F)) (ls : list flevel) : result (option (tensor F)) :=
    match ls with
    | [] => Ok x
    | l :: ls' => match call l x with Err e => Err e | Ok y => eval_forward (Some y) ls' end
    end.

  (** A model: its mode, its selection, its number of points, its levels. *)
  Record fmodel : Type := FModel { fm_training : bool; fm_idx : option (list Z); fm_num : option Z; fm_levels : list flevel }.
  Definition forward (m : fmodel) (x : option (tensor F)) : result (option (tensor F)) * fmodel :=
    if fm_training m
    then let '(r, ls) := train_forward (fm_idx m) x (fm_levels m) in (r, FModel true (fm_idx m) (fm_num m) ls)
    else (eval_forward x (fm_levels m), m).

  (** Values returned by a method. *)
  Inductive returned : Type := RNone | RLevel (l : flevel) | RModel (m : fmodel).

  Definition select_all (l : flevel) : flevel :=
    FLevel (snd (select_idx (fl_state l) full_request)) (fl_par l) (fl_soft l).
  (** [Stochastic.train] of a level (stochastic.py:48-58) returns it. *)
  Definition train_level (l : flevel) (mode : bool) : returned * flevel :=
    let l' := if mode then l else select_all l in (RLevel l', l').
  (** [Model.stochastic] without argument (146-149). *)
  Definition model_select_all (m : fmodel) : fmodel :=
    let idx := match fm_num m with Some n => Some (range n) | None => fm_idx m end in
    FModel (fm_training m) idx (fm_num m)
      (map (fun l => FLevel (snd (select_idx (fl_state l) (Request idx None []))) (fl_par l) (fl_soft l)) (fm_levels m)).
  (** [Model.train] (171-174), [eval()] being [train(False)] (torch.nn.Module): it has no
      [return] statement. *)
  Definition train_model (m : fmodel) (mode : bool) : returned * fmodel :=
    let m1 := FModel mode (fm_idx m) (fm_num m) (fm_levels m) in
    let m2 := if mode then m1 else model_select_all m1 in
    (RNone, FModel (fm_training m2) (fm_idx m2) (fm_num m2) (map (fun l => snd (train_level l mode)) (fm_levels m2))).
End Forward.
Arguments flevel F V P : clear implicits.
Arguments behaviour F P : clear implicits.
Arguments fmodel F V P : clear implicits.
Arguments returned F V P : clear implicits.
