(** Vocabulary for the properties of stacked random features. *)
From Verif Require Import Base Stack.
Open Scope nat_scope.
Open Scope list_scope.

Section S.
Context {P W : Type}.
Context (outer inner : list P -> P -> result P) (feat : W -> P -> result P).

(** The images of the points that have one. *)
Definition images (f : P -> result P) (l : list P) : list P :=
  flat_map (fun p => match f p with Ok y => [y] | Err _ => [] end) l.
(** One stage: the transform fitted to [base], then the features of the weights [w]. *)
Definition stage (w : W) (base : list P) (x : P) : result P := bind (inner base x) (feat w).
(** All stages: each one is fitted to the images of [base] by the preceding ones. *)
Fixpoint through (ws : list W) (base : list P) (x : P) : result P :=
  match ws with
  | [] => Ok x
  | w :: ws' => bind (stage w base x) (through ws' (images (stage w base) base))
  end.

(** The sample and the indices given at the last initialisation. *)
Fixpoint last_init (s : list P) (idx : option (list nat)) (ops : list (op P)) : list P * option (list nat) :=
  match ops with
  | [] => (s, idx)
  | OInit s' idx' :: ops' => last_init s' idx' ops'
  | _ :: ops' => last_init s idx ops'
  end.
(** The points to which the first stage is then fitted. *)
Definition base_of (a : list P * option (list nat)) : list P :=
  match select (fst a) (match snd a with Some i => i | None => seq 0 (List.length (fst a)) end) with
  | Ok c => images (outer c) c
  | Err _ => []
  end.

(** No initialisation of the history was refused. *)
Definition inits_accepted (rs : list (op P * result unit)) : Prop :=
  forall s idx r, In (OInit s idx, r) rs -> r = Ok tt.
(** The history only selects. *)
Definition touches_sample (o : op P) : bool := match o with OSelect _ => false | _ => true end.

(** [back] undoes [f]. *)
Definition undoes {A B : Type} (f : A -> result B) (back : B -> result A) : Prop :=
  forall x y, f x = Ok y -> back y = Ok x.
End S.
