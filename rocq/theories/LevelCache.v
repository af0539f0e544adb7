(** What a KPCA level keeps in its cache: its outputs, the square roots of its eigenvalues
    and the components of its loss ([kerch/level/_View.py:410-423], [kerch/level/_KPCA.py],
    [kerch/level/_Level.py:146-176]).  Definitions only.

    The sample, the selection and the kernel do not change here: the operations that change
    them reset the cache ([LReset]). *)
From Verif Require Import Base Cache.
Open Scope string_scope.
Open Scope Z_scope.

Section Level.
  (** Dual and primal variables, eigenvalues, inputs, outputs, scalars. *)
  Context {D W L X O R : Type}.
  (** What the code computes from them; reading variables that are not initialised raises.
      An input [None] stands for the sample. *)
  Variable out_dual : D -> option X -> result O.
  Variable out_primal : W -> L -> option X -> result O.
  Variable root : L -> L.
  Variable loss_original : bool -> result R.
  Variable loss_projected_dual : D -> result R.
  Variable loss_projected_primal : W -> result R.
  Variable sub : R -> R -> R.

  (** The values of a cache entry. *)
  Inductive val : Type := VOut (o : O) | VRoot (l : L) | VLoss (r : R).
  Record params : Type := Params { p_dual : D; p_primal : W; p_vals : L }.
  (** [l_inputs] gives the contents of the objects by their [id]. *)
  Record level : Type := Level {
    l_cache : cache val; l_params : params; l_primal : bool; l_inputs : string -> X }.
  Definition with_cache (s : level) (c : cache val) : level := Level c (l_params s) (l_primal s) (l_inputs s).

  Definition rep_name (primal : bool) : string := if primal then "primal" else "dual".
  (** An input: the sample ([x is None]) or the object of a given [id]; the numeric
      [id(None)] and [id(x)] of _View.py:412 are written as distinct strings. *)
  Inductive input : Type := Whole | Object (id : string).
  Definition id_of (x : input) : string := match x with Whole => "None" | Object i => "0x" ++ i end.
  Definition content (s : level) (x : input) : option X := match x with Whole => None | Object i => Some (l_inputs s i) end.
  Definition forward_key (x : input) (primal : bool) : string := "forward_" ++ id_of x ++ "_" ++ rep_name primal.

  Definition to_out (r : result val) : result O :=
    match r with Ok (VOut o) => Ok o | Ok _ => Err ETypeError | Err e => Err e end.
  Definition to_loss (r : result val) : result R :=
    match r with Ok (VLoss o) => Ok o | Ok _ => Err ETypeError | Err e => Err e end.
  Definition as_val {A} (f : A -> val) (r : result A) : result val := match r with Ok a => Ok (f a) | Err e => Err e end.

  (** [sqrt_vals] (_KPCA.py:37-39). *)
  Definition read_root (c : cache val) (p : params) : result L * cache val :=
    let '(r, c') := get c "sqrt_vals" (Ok (VRoot (root (p_vals p)))) default_args in
    (match r with Ok (VRoot l) => Ok l | Ok _ => Err ETypeError | Err e => Err e end, c').
  (** [_forward] (single_view/View.py:231-235, _View.py:324-344, _KPCA.py:203-209). *)
  Definition compute (s : level) (x : input) (primal : bool) : result val * cache val :=
    if primal
    then let '(l, c) := read_root (l_cache s) (l_params s) in
         (as_val VOut (bind l (fun l => out_primal (p_primal (l_params s)) l (content s x))), c)
    else (as_val VOut (out_dual (p_dual (l_params s)) (content s x)), l_cache s).
  (** [forward] (_View.py:410-423): the level key is a function, so it is not found in the
      table. *)
  Definition forward_args : get_args := GetArgs KObj "normal" false false false false.
  Definition forward (s : level) (x : input) (primal : bool) : result O * level :=
    match dget (c_entries (l_cache s)) (forward_key x primal) with
    | Some e => (to_out (Ok (e_val e)), s)
    | None =>
        let '(v, c) := compute s x primal in
        let '(r, c') := get c (forward_key x primal) v forward_args in
        (to_out r, with_cache s c')
    end.

  (** [_loss_original], [_loss_projected] (_KPCA.py:218-248). *)
  Definition loss_args (default : bool) : get_args :=
    GetArgs (KStr (if default then "Level_subloss_default_representation" else "Level_subloss_representation")) "normal" false false false false.
  Definition read_original (s : level) (primal : bool) : result R * level :=
    let '(r, c) := get (l_cache s) ("subloss_original_" ++ rep_name primal) (as_val VLoss (loss_original primal))
                       (loss_args (Bool.eqb primal (l_primal s))) in
    (to_loss r, with_cache s c).
  Definition read_projected (s : level) (primal : bool) : result R * level :=
    let v := if primal then loss_projected_primal (p_primal (l_params s)) else loss_projected_dual (p_dual (l_params s)) in
    let '(r, c) := get (l_cache s) ("subloss_projected_" ++ rep_name primal) (as_val VLoss v)
                       (loss_args (Bool.eqb primal (l_primal s))) in
    (to_loss r, with_cache s c).
  (** [loss] (211-216). *)
  Definition loss (s : level) (primal : bool) : result R * level :=
    let '(a, s1) := read_original s primal in
    match a with
    | Err e => (Err e, s1)
    | Ok a => let '(b, s2) := read_projected s1 primal in
              match b with Err e => (Err e, s2) | Ok b => (Ok (sub a b), s2) end
    end.
  (** [losses] (_KPCA.py:250-253): the two components, then the loss. *)
  Definition losses (s : level) : result unit * level :=
    let '(a, s1) := read_original s (l_primal s) in
    match a with
    | Err e => (Err e, s1)
    | Ok _ => let '(b, s2) := read_projected s1 (l_primal s) in
              match b with
              | Err e => (Err e, s2)
              | Ok _ => let '(c, s3) := loss s2 (l_primal s) in
                        (match c with Err e => Err e | Ok _ => Ok tt end, s3)
              end
    end.
  (** [before_step] (_Level.py:165-170) removes the names under which the losses are
      listed; [after_step] (172-176) removes nothing, [_parameter_related_cache] being
      empty. *)
  Definition before_step (s : level) : result unit * level :=
    let '(r, s1) := losses s in
    match r with
    | Err e => (Err e, s1)
    | Ok _ => (Ok tt, with_cache s1 (remove_from_cache (l_cache s1) (KeyList ["Original"; "Projected"; "Level loss"])))
    end.

  (** Changing the parameters: an assignment, a solution or a step of an optimiser.
      Assigning the primal variables, or none, resets the dual ones, which removes the
      total variances (_KPCA.py:94-96). *)
  Definition change (s : level) (p : params) (reset_dual : bool) : level :=
    let c := if reset_dual then remove_from_cache (l_cache s) (KeyList ["total_variance_primal"; "total_variance_dual"]) else l_cache s in
    Level c p (l_primal s) (l_inputs s).

  Inductive lop : Type :=
  | LForward (x : input) (primal : bool)
  | LLoss (primal : bool)
  | LBeforeStep | LAfterStep
  | LChange (p : params) (reset_dual : bool)
  | LInputs (f : string -> X)
  | LReset.
  Definition lstep (s : level) (o : lop) : level :=
    match o with
    | LForward x r => snd (forward s x r)
    | LLoss r => snd (loss s r)
    | LBeforeStep => snd (before_step s)
    | LAfterStep => s
    | LChange p b => change s p b
    | LInputs f => Level (l_cache s) (l_params s) (l_primal s) f
    | LReset => with_cache s (reset_cache (l_cache s) false [])
    end.
  Definition lrun (s : level) (os : list lop) : level := fold_left lstep os s.
  (** A level as created: nothing cached. *)
  Definition level0 (l : lvl) (p : params) (primal : bool) (f : string -> X) : level := Level (init_cache l) p primal f.
End Level.
Arguments level D W L X O R : clear implicits.
Arguments params D W L : clear implicits.
Arguments val L O R : clear implicits.
Arguments lop D W L X : clear implicits.
