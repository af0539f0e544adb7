(** The outputs of a level that caches normally, told without a cache: the outputs already
    given and the roots of the eigenvalues already used are remembered until a reset. *)
From Verif Require Import Base LevelCache.

Section Memory.
  Context {D W L X O : Type}.
  Variable out_dual : D -> option X -> result O.
  Variable out_primal : W -> L -> option X -> result O.
  Variable root : L -> L.

  Record memory : Type := Memory {
    m_params : params D W L;
    m_inputs : string -> X;
    m_root : option L;
    m_given : input -> bool -> option O }.

  Definition input_eqb (x y : input) : bool :=
    match x, y with Whole, Whole => true | Object i, Object j => String.eqb i j | _, _ => false end.
  Definition m_content (m : memory) (x : input) : option X := match x with Whole => None | Object i => Some (m_inputs m i) end.
  Definition root_used (m : memory) : L := match m_root m with Some l => l | None => root (p_vals (m_params m)) end.
  (** What a first read of an input gives. *)
  Definition fresh (m : memory) (x : input) (primal : bool) : result O :=
    if primal then out_primal (p_primal (m_params m)) (root_used m) (m_content m x)
    else out_dual (p_dual (m_params m)) (m_content m x).
  Definition answer (m : memory) (x : input) (primal : bool) : result O :=
    match m_given m x primal with Some o => Ok o | None => fresh m x primal end.

  Definition recall (m : memory) (x : input) (primal : bool) : memory :=
    match m_given m x primal with
    | Some _ => m
    | None =>
        Memory (m_params m) (m_inputs m)
          (if primal then Some (root_used m) else m_root m)
          (match fresh m x primal with
           | Ok o => fun y r => if input_eqb x y && Bool.eqb primal r then Some o else m_given m y r
           | Err _ => m_given m
           end)
    end.
  Definition mstep (m : memory) (o : lop D W L X) : memory :=
    match o with
    | LForward x r => recall m x r
    | LChange p _ => Memory p (m_inputs m) (m_root m) (m_given m)
    | LInputs f => Memory (m_params m) f (m_root m) (m_given m)
    | LReset => Memory (m_params m) (m_inputs m) None (fun _ _ => None)
    | LLoss _ | LBeforeStep | LAfterStep => m
    end.
  Definition mrun (m : memory) (os : list (lop D W L X)) : memory := fold_left mstep os m.
  Definition memory0 (p : params D W L) (f : string -> X) : memory := Memory p f None (fun _ _ => None).
End Memory.
