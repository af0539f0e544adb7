(** Creating, solving and reading the levels with targets, LS-SVM and ridge regression, and
    creating a multi-view level ([kerch/level/single_view/View.py:52-81], [LSSVM.py],
    [Ridge.py], [kerch/level/_Level.py:22-32,108-138], [single_view/Level.py:16-46]).
    Definitions only.

    Only the control flow and the sizes are modelled; what is computed is in LssvmM.v.  In
    primal the dimension of the features is taken to be known, and linear systems to be
    regular. *)
From Verif Require Import Base.

Inductive kind : Type := Lssvm | RidgeRegression.

(** The keyword arguments of interest; sizes are (points, dimension). *)
Record args : Type := Args {
  a_requires_bias : option bool; a_dim_output : option nat;
  a_sample : option (nat * nat); a_target : option (nat * nat); a_primal : bool }.

(** A level: number of points, number of selected points (the first ones, say), number of
    outputs, size of the target, number of points of the dual variables if any, and whether
    there are primal variables and a bias. *)
Record obj : Type := Obj {
  o_kind : kind; o_requires : bool; o_primal : bool; o_total : option nat; o_num_idx : nat;
  o_dim_output : option nat; o_target : option (nat * nat); o_dual : option nat; o_weights : bool; o_bias : bool }.
Definition with_requires (o : obj) (b : bool) : obj :=
  Obj (o_kind o) b (o_primal o) (o_total o) (o_num_idx o) (o_dim_output o) (o_target o) (o_dual o) (o_weights o) (o_bias o).
Definition with_sample (o : obj) (n k : nat) : obj :=
  Obj (o_kind o) (o_requires o) (o_primal o) (Some n) k (o_dim_output o) (o_target o) (o_dual o) (o_weights o) (o_bias o).
Definition with_target (o : obj) (t : nat * nat) : obj :=
  Obj (o_kind o) (o_requires o) (o_primal o) (o_total o) (o_num_idx o) (o_dim_output o) (Some t) (o_dual o) (o_weights o) (o_bias o).
Definition with_vars (o : obj) (dual : option nat) (weights bias : bool) : obj :=
  Obj (o_kind o) (o_requires o) (o_primal o) (o_total o) (o_num_idx o) (o_dim_output o) (o_target o) dual weights bias.

(** [kwargs_decorator] (LSSVM.py:19-21, Ridge.py:8-10): the default of [requires_bias]. *)
Definition requires (k : kind) (a : args) : bool :=
  match a_requires_bias a with Some b => b | None => match k with Lssvm => true | RidgeRegression => false end end.

(** The [target] setter (View.py:186-199). *)
Definition set_target (o : obj) (t : option (nat * nat)) : result unit * obj :=
  match t with
  | None => (Ok tt, o)
  | Some (m, q) =>
      match o_total o with
      | None => (Err ENotInitialized, o)
      | Some n =>
          match o_dim_output o with
          | None => (Err ENotInitialized, o)
          | Some d => if negb (Nat.eqb d q) then (Err EAssertionError, o)
                      else if negb (Nat.eqb n m) then (Err EAssertionError, o)
                      else (Ok tt, with_target o (m, q))
          end
      end
  end.

(** [init_parameters] (_View.py:100-122, View.py:88-91); the assertions are caught by the
    constructor (_Level.py:28-32).  No bias is required when this is reached. *)
Definition init_parameters (o : obj) : obj :=
  match o_dim_output o with
  | None => o
  | Some _ => if o_primal o then with_vars o None true (o_bias o)
              else match o_total o with None => o | Some n => with_vars o (Some n) (o_weights o) (o_bias o) end
  end.

(** The constructors.  Ridge.py:12-15 reads the logger before it exists; View.py:68-69 reads
    [_param_trainable], which nothing has set, when a bias is required. *)
Definition create (k : kind) (a : args) : result obj :=
  if requires k a then Err EAttributeError
  else
    let d := match a_dim_output a with Some d => Some d | None => match a_target a with Some (_, q) => Some q | None => None end end in
    let n := match a_sample a with Some (n, _) => Some n | None => None end in
    let o := Obj k false (a_primal a) n (match n with Some n => n | None => 0 end) d None None false false in
    let '(r, o1) := set_target o (a_target a) in
    match r with Err e => Err e | Ok _ => Ok (init_parameters o1) end.

(** [MultiView.__init__] (MultiView.py:26-27), which [MVKPCA] calls, reads the name [args], which is
    not bound ([MultiView] itself has abstract methods left, see Abstract.v). *)
Definition create_multiview (views : list args) : result unit := Err ENameError.

(** [requires_bias] setter (View.py:107-110): the flag is set, then [_param_trainable] read. *)
Definition set_requires (o : obj) (b : bool) : result unit * obj :=
  (if b then Err EAttributeError else Ok tt, with_requires o b).

(** [bias] setter (131-151) with a value: a new parameter reads [bias_trainable]. *)
Definition set_bias (o : obj) : result unit * obj :=
  if o_bias o then (Ok tt, o)
  else if o_requires o then (Err EAttributeError, o)
  else (Ok tt, with_vars o (o_dual o) (o_weights o) true).

(** [update_dual] (_View.py:175-187) with values for [n] points. *)
Definition update_dual (o : obj) (n : nat) : result unit * obj :=
  match o_dual o with
  | None => (Ok tt, with_vars o (Some n) (o_weights o) (o_bias o))
  | Some r => if Nat.eqb n r || Nat.eqb n 1 then (Ok tt, o) else (Err ERuntimeError, o)
  end.

(** [_solve_dual] of the LS-SVM (LSSVM.py:73-101): [num_sample] ones beside a matrix of
    [num_idx] rows.  That of the ridge regression (Ridge.py:33-45) is called without a
    target. *)
Definition solve_dual (o : obj) (n : nat) : result unit * obj :=
  match o_kind o with
  | RidgeRegression => (Err (if Nat.eqb (o_num_idx o) n then ETypeError else ERuntimeError), o)
  | Lssvm =>
      match o_dim_output o with
      | None => (Err ENotInitialized, o)
      | Some _ =>
          match o_target o with
          | None => (Err ENotInitialized, o)
          | Some (m, _) =>
              if Nat.ltb m (o_num_idx o) then (Err EIndexError, o)
              else if negb (Nat.eqb (o_num_idx o) n) then (Err ERuntimeError, o)
              else let '(r, o1) := update_dual o n in
                   match r with Err e => (Err e, o1) | Ok _ => set_bias o1 end
          end
      end
  end.
(** [_solve_primal] (LSSVM.py:48-50, Ridge.py:18-20) reads [phi_sample], which no kernel
    has. *)
Definition solve_primal (o : obj) : result unit * obj := (Err EAttributeError, o).

(** [solve] (Level.py:16-46 then _Level.py:108-138); a new sample is selected as a whole.
    Without any sample an error is logged and nothing is done. *)
Definition solve (o : obj) (sample target : option (nat * nat)) (primal : option bool) : result unit * obj :=
  let o1 := match sample with Some (n, _) => with_sample o n n | None => o end in
  let checked :=
    match target with
    | None => Ok tt
    | Some (m, _) => match sample with None => Err EAttributeError
                     | Some (n, _) => if Nat.eqb n m then Ok tt else Err EValueError end
    end in
  match checked with
  | Err e => (Err e, o1)
  | Ok _ =>
      let '(r, o2) := set_target o1 target in
      match r with
      | Err e => (Err e, o2)
      | Ok _ =>
          match o_total o2 with
          | None => (Ok tt, o2)
          | Some n => if (match primal with Some b => b | None => o_primal o2 end) then solve_primal o2 else solve_dual o2 n
          end
      end
  end.

(** [loss] (LSSVM.py:122-158): [1 / num_idx], then [hidden] or [weight], which do not
    exist.  Without a sample the selection is [None], which has no length. *)
Definition read_loss (o : obj) (primal : bool) : result unit :=
  match o_total o with
  | None => Err ETypeError
  | Some _ => if Nat.eqb (o_num_idx o) 0 then Err EDivisionByZero else Err EAttributeError
  end.

(** [_forward] (View.py:231-235) in dual: does the bias enter the prediction? *)
Definition forward_uses_bias (o : obj) : result bool :=
  match o_dual o with
  | Some _ => if o_requires o then (if o_bias o then Ok true else Err ERuntimeError) else Ok false
  | None => Err ENotInitialized
  end.

(** Selecting the first [k] points of the sample ([stochastic], feature/stochastic.py:44-75). *)
Definition select_part (o : obj) (k : nat) : obj :=
  match o_total o with Some n => with_sample o n (Nat.min k n) | None => o end.

Inductive cop : Type :=
| CSolve (sample target : option (nat * nat)) (primal : option bool)
| CRequires (b : bool)
| CSelect (k : nat).
Definition cstep (o : obj) (c : cop) : obj :=
  match c with
  | CSolve s t p => snd (solve o s t p)
  | CRequires b => snd (set_requires o b)
  | CSelect k => select_part o k
  end.
Definition crun (o : obj) (l : list cop) : obj := fold_left cstep l o.
