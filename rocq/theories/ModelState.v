(** A model and its levels ([kerch/model/Model.py], [kerch/model/RKM.py]): how levels are
    appended, initialised for training and solved.  Definitions only.

    Levels are kernel PCA levels without targets; only dimensions, numbers of points, existence
    and trainability of the parameters are kept.  [feat] is the feature dimension of the kernel
    as a function of its input dimension (it may fail).  All points are selected.  Parameters
    are supposed not to be empty when they exist ([nelement() != 0] in the code). *)
From Verif Require Import Base.
Open Scope nat_scope.
Open Scope string_scope.
Open Scope list_scope.

(** A parameter: points or features, components, [requires_grad]. *)
Record param : Type := Param { p_rows : nat; p_cols : nat; p_grad : bool }.

Record level : Type := Level {
  lv_in : option nat;             (* [_dim_input] *)
  lv_out : option nat;            (* [_dim_output] *)
  lv_total : option nat;          (* [_num_total] *)
  lv_sample : bool;               (* the sample is not empty *)
  lv_primal : bool;               (* representation *)
  lv_feat : option nat -> result nat;
  lv_dual : option param;         (* [_dual_param] *)
  lv_weights : option param;      (* [_primal_param] *)
  lv_kw : bool;                   (* [_level_trainable], the constructor's argument *)
  lv_soft : option bool;          (* [_param_trainable], unset by the constructor *)
  lv_attr : bool }.               (* the attribute [_weight] exists *)

Definition with_in (l : level) (d : option nat) (smp : bool) : level :=
  Level d (lv_out l) (lv_total l) smp (lv_primal l) (lv_feat l) (lv_dual l) (lv_weights l) (lv_kw l) (lv_soft l) (lv_attr l).
Definition with_total (l : level) (n : option nat) (smp : bool) : level :=
  Level (lv_in l) (lv_out l) n smp (lv_primal l) (lv_feat l) (lv_dual l) (lv_weights l) (lv_kw l) (lv_soft l) (lv_attr l).
Definition with_out (l : level) (q : option nat) : level :=
  Level (lv_in l) q (lv_total l) (lv_sample l) (lv_primal l) (lv_feat l) (lv_dual l) (lv_weights l) (lv_kw l) (lv_soft l) (lv_attr l).
(** Assigning parameters also sets the output dimension to their number of components
    (_View.py:208, 289). *)
Definition with_dual (l : level) (p : param) : level :=
  Level (lv_in l) (Some (p_cols p)) (lv_total l) (lv_sample l) (lv_primal l) (lv_feat l) (Some p) (lv_weights l) (lv_kw l) (lv_soft l) true.
Definition with_weights (l : level) (p : param) : level :=
  Level (lv_in l) (Some (p_cols p)) (lv_total l) (lv_sample l) (lv_primal l) (lv_feat l) None (Some p) (lv_kw l) (lv_soft l) (lv_attr l).
Definition without_dual (l : level) : level :=
  Level (lv_in l) (lv_out l) (lv_total l) (lv_sample l) (lv_primal l) (lv_feat l) None (lv_weights l) (lv_kw l) (lv_soft l) true.
Definition without_dual' (l : level) : level :=
  Level (lv_in l) (lv_out l) (lv_total l) (lv_sample l) (lv_primal l) (lv_feat l) None (lv_weights l) (lv_kw l) (lv_soft l) (lv_attr l).
Definition with_soft (l : level) (d : option param) (b : bool) : level :=
  Level (lv_in l) (lv_out l) (lv_total l) (lv_sample l) (lv_primal l) (lv_feat l) d (lv_weights l) (lv_kw l) (Some b) (lv_attr l).

(** The [dual_param] setter (_View.py:189-213): values of the same shape are copied into the
    existing parameter, which keeps its trainability; otherwise a new parameter takes that of
    the constructor's argument.  The attribute [_weight] is then reset (single_view/View.py:112-115). *)
Definition assign_dual (l : level) (rows cols : nat) : level :=
  match lv_dual l with
  | Some p => if Nat.eqb (p_rows p) rows && Nat.eqb (p_cols p) cols then with_dual l p
              else with_dual l (Param rows cols (lv_kw l))
  | None => with_dual l (Param rows cols (lv_kw l))
  end.
(** The [primal_param] setter (269-292): the dual variables are unset; the comparison of shapes
    (279) compares a transposed with a non-transposed shape, so that the copy (280) fails unless
    the parameter is square. *)
Definition assign_weights (l : level) (rows cols : nat) : result unit * level :=
  match lv_weights l with
  | Some p => if Nat.eqb (p_cols p) rows && Nat.eqb (p_rows p) cols
              then if Nat.eqb rows cols then (Ok tt, with_weights l p) else (Err ERuntimeError, without_dual' l)
              else (Ok tt, with_weights l (Param rows cols (lv_kw l)))
  | None => (Ok tt, with_weights l (Param rows cols (lv_kw l)))
  end.

(** [_init_dual], [_init_primal], [init_parameters] (87-123). *)
Definition init_dual (l : level) : result unit * level :=
  match lv_total l, lv_out l with
  | Some n, Some q => (Ok tt, assign_dual l n q)
  | _, _ => (Err EAssertionError, l)
  end.
Definition init_primal (l : level) : result unit * level :=
  match lv_out l with
  | None => (Err EAssertionError, l)
  | Some q => match lv_feat l (lv_in l) with
              | Err e => (Err e, l)
              | Ok d => assign_weights l d q
              end
  end.
Definition exists_ {A} (p : option A) : bool := match p with None => false | Some _ => true end.
Definition init_parameters (l : level) (overwrite : bool) : result unit * level :=
  if lv_primal l
  then if overwrite || negb (exists_ (lv_weights l)) then init_primal l else (Ok tt, l)
  else if overwrite || negb (exists_ (lv_dual l)) then init_dual l else (Ok tt, l).

(** Arguments of a level: [g_type] is the name of the type of level in lower case, [g_weight]
    the shape of given weights. *)
Record largs : Type := LArgs {
  g_type : option string; g_constraint : option string; g_in : option nat; g_out : option nat;
  g_num : option nat; g_sample : option (nat * nat); g_primal : bool; g_feat : option nat -> result nat;
  g_weight : option (nat * nat); g_kw : bool }.

(** The constructor: the sample (sample.py:55-71; a number of points without input dimension
    fails in [init_sample], 180-186), the given weights (_View.py:44-67), then the parameters,
    ignoring an [AssertionError] (_Level.py:28-32).  Only when no weights are given is the
    attribute [_weight] created. *)
Definition create (a : largs) : result level :=
  let '(i, n) := match g_sample a with Some (n, d) => (Some d, Some n) | None => (g_in a, g_num a) end in
  match i, n with
  | None, Some _ => Err ENotInitialized
  | _, _ =>
      let smp := exists_ i && exists_ n in
      let l0 := Level i (g_out a) n smp (g_primal a) (g_feat a) None None (g_kw a) None (negb (exists_ (g_weight a))) in
      let l1 := match g_weight a with Some (r, c) => snd (assign_weights l0 r c) | None => l0 end in
      match init_parameters l1 true with
      | (Ok _, l) => Ok l
      | (Err EAssertionError, l) => Ok l
      | (Err e, _) => Err e
      end
  end.

(** [factory] (level/factory.py:22-38): [_append_level] passes [level_type=None] when no type
    is given (Model.py:176-180).  Only kernel PCA is kept here. *)
Definition make_level (a : largs) : result level :=
  match g_type a with
  | None => Err EAttributeError
  | Some t => if String.eqb t "kpca" then create a else Err ENameError
  end.

(** The [level_trainable] setter (single_view/View.py:164-169). *)
Definition set_trainable (l : level) (b : bool) : result unit * level :=
  let d := match lv_dual l with Some p => Some (Param (p_rows p) (p_cols p) b) | None => None end in
  if lv_attr l then (Ok tt, with_soft l d b) else (Err EAttributeError, with_soft l d b).

(** A model: its levels. *)
Definition model : Type := list level.
Definition last_level (m : model) : option level := last (map Some m) None.

(** The [dim_input] setter (sample.py:84-90) when the input dimension is not known. *)
Definition set_in (l : level) (d : option nat) : level := with_in l d (lv_sample l || exists_ (lv_total l)).

(** [_append_level] (176-216).  The level is created first, and is lost on a failure. *)
Definition append_level (m : model) (a : largs) : result unit * model :=
  match make_level a with
  | Err e => (Err e, m)
  | Ok l =>
      match lv_out l with
      | None => (Err EAssertionError, m)
      | Some _ =>
          let l1 := match lv_in l, last_level m with
                    | None, Some p => set_in l (lv_out p)
                    | _, _ => l
                    end in
          let c := match g_constraint a with None => "soft" | Some c => c end in
          if negb (String.eqb c "soft" || String.eqb c "hard") then (Err ENameError, m)
          else match set_trainable l1 (String.eqb c "soft") with
               | (Err e, _) => (Err e, m)
               | (Ok _, l2) =>
                   match last_level m with
                   | None => (Ok tt, m ++ [l2])
                   | Some p =>
                       match lv_out p, lv_in l2 with
                       | Some q, Some d => if Nat.eqb q d then (Ok tt, m ++ [l2]) else (Err EAssertionError, m)
                       | _, _ => (Err ENotInitialized, m)
                       end
                   end
               end
      end
  end.

(** [init_sample] (88-91) with [n] points of dimension [d]: the dimensions of the first level
    are those of the given points, whatever they were (sample.py:198-200). *)
Definition init_sample (m : model) (n d : nat) : result unit * model :=
  match m with
  | [] => (Err ENotInitialized, m)
  | l :: ls => (Ok tt, with_total (with_in l (Some d) true) (Some n) true :: ls)
  end.

(** The [num_sample] setter (sample.py:111-117). *)
Definition set_num_sample (l : level) (n : nat) : result unit * level :=
  match lv_total l with
  | Some _ => (Err EAssertionError, l)
  | None => (Ok tt, with_total l (Some n) (lv_sample l || exists_ (lv_in l)))
  end.
Fixpoint init_deeper (n : nat) (ls : model) : result unit * model :=
  match ls with
  | [] => (Ok tt, [])
  | l :: ls' =>
      match set_num_sample l n with
      | (Err e, l1) => (Err e, l1 :: ls')
      | (Ok _, l1) =>
          match init_parameters l1 false with
          | (Err e, l2) => (Err e, l2 :: ls')
          | (Ok _, l2) => let '(r, ls2) := init_deeper n ls' in (r, l2 :: ls2)
          end
      end
  end.
(** [init_levels] with its default argument (97-116); the number of points of the model is that
    of its first level, which raises when its sample is empty. *)
Definition init_levels (m : model) : result unit * model :=
  match m with
  | [] => (Err ENotInitialized, m)
  | l :: ls =>
      match init_parameters l false with
      | (Err e, l1) => (Err e, l1 :: ls)
      | (Ok _, l1) =>
          match ls, lv_total l1, lv_sample l1 with
          | [], _, _ => (Ok tt, [l1])
          | _, Some n, true => let '(r, ls1) := init_deeper n ls in (r, l1 :: ls1)
          | _, _, _ => (Err ENotInitialized, l1 :: ls)
          end
      end
  end.
(** The start of a training (train/Trainer.py:156-161). *)
Definition init_training (m : model) (n d : nat) : result unit * model :=
  match init_sample m n d with
  | (Err e, m1) => (Err e, m1)
  | (Ok _, m1) => init_levels m1
  end.

(** Solving a level (_KPCA.py:111-176): the number of components is at most the size of the
    matrix, and the [pruned] components of small eigenvalues are dropped.  In dual, existing
    variables are overwritten in place ([update_dual], _View.py:176-187), which fails when the
    shapes differ (unless the new values have one component or one point, and are repeated). *)
Definition solve_level (l : level) (pruned : nat) : result unit * level :=
  match lv_total l with
  | None => (Ok tt, l)                                       (* only logged (_Level.py:127-129) *)
  | Some n =>
      if lv_primal l
      then match lv_feat l (lv_in l) with
           | Err e => (Err e, l)
           | Ok d => let q := match lv_out l with Some q => Nat.min q d | None => d end in
                     assign_weights (with_out l (Some (q - pruned))) d (q - pruned)
           end
      else
        let '(q, l1) := match lv_out l with
                        | None => (n, with_out l (Some n))
                        | Some q => if Nat.ltb n q then (n, without_dual (with_out l (Some n))) else (q, l)
                        end in
        let q2 := q - pruned in
        let l2 := with_out l1 (Some q2) in
        match lv_dual l2 with
        | None => (Ok tt, with_dual l2 (Param n q2 (lv_kw l2)))
        | Some p => if (Nat.eqb (p_rows p) n || Nat.eqb n 1) && (Nat.eqb (p_cols p) q2 || Nat.eqb q2 1)
                    then (Ok tt, l2) else (Err ERuntimeError, l2)
        end
  end.
Fixpoint update_nth {A} (i : nat) (f : A -> A) (l : list A) : list A :=
  match l, i with
  | [], _ => []
  | x :: l', O => f x :: l'
  | x :: l', S j => x :: update_nth j f l'
  end.

(** What the optimiser gets ([_stiefel_parameters], _KPCA.py:193-201, then
    opt/Optimizer.py:19-25): the parameters of the representation, if they exist and require
    gradients. *)
Definition optimised (l : level) : bool :=
  match (if lv_primal l then lv_weights l else lv_dual l) with Some p => p_grad p | None => false end.

Inductive mop : Type :=
| MAppend (a : largs) | MInitSample (n d : nat) | MInitLevels | MSolve (i pruned : nat).
Definition mstep (m : model) (o : mop) : model :=
  match o with
  | MAppend a => snd (append_level m a)
  | MInitSample n d => snd (init_sample m n d)
  | MInitLevels => snd (init_levels m)
  | MSolve i p => update_nth i (fun l => snd (solve_level l p)) m
  end.
Definition mrun (m : model) (os : list mop) : model := fold_left mstep os m.
