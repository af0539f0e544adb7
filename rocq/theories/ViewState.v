(** The primal and dual variables of a level ([kerch/level/_View.py],
    [kerch/level/single_view/View.py]) and how solving a KPCA assigns them.  Definitions
    only.

    Parameters are stored transposed by the code and transposed back when they are read;
    the model keeps the matrix as it is read, with one row per point (dual) or per feature
    (primal).  Devices and gradients are left out. *)
From Verif Require Import Base Cache Sample.
Open Scope nat_scope.

Section View.
  Context {F : Type}.
  Notation tensor := (@tensor F).

  (** A [torch.nn.Parameter]: its identity and its contents. *)
  Record param : Type := Param { p_id : nat; p_val : tensor }.
  Definition empty_tensor : tensor := Tensor 0 [].
  Definition rows (t : tensor) : nat := List.length (t_rows t).
  Definition cols (t : tensor) : nat := t_cols t.
  (** [_dual_param_exists], [_primal_param_exists] (_View.py:227-231, 294-298). *)
  Definition exists_ (p : param) : bool := negb (Nat.eqb (rows (p_val p) * cols (p_val p)) 0).

  (** [v_total] is the number of points of the sample, [v_idx] the selected indices,
      [v_feat] what [dim_feature] gives, [v_attached] what the function of [attach_to]
      gives.  [v_next] numbers the parameters. *)
  Record view : Type := View {
    v_next : nat; v_total : option nat; v_idx : list Z; v_feat : result nat;
    v_out : option nat; v_dual : param; v_primal : param; v_attached : option tensor }.

  Definition with_out (s : view) (o : option nat) : view :=
    View (v_next s) (v_total s) (v_idx s) (v_feat s) o (v_dual s) (v_primal s) (v_attached s).
  Definition with_dual (s : view) (p : param) : view :=
    View (v_next s) (v_total s) (v_idx s) (v_feat s) (v_out s) p (v_primal s) (v_attached s).
  Definition with_primal (s : view) (p : param) : view :=
    View (v_next s) (v_total s) (v_idx s) (v_feat s) (v_out s) (v_dual s) p (v_attached s).
  Definition new_dual (s : view) (t : tensor) : view :=
    View (S (v_next s)) (v_total s) (v_idx s) (v_feat s) (v_out s) (Param (v_next s) t) (v_primal s) (v_attached s).
  Definition new_primal (s : view) (t : tensor) : view :=
    View (S (v_next s)) (v_total s) (v_idx s) (v_feat s) (v_out s) (v_dual s) (Param (v_next s) t) (v_attached s).

  (** [_reset_dual] (_View.py:78-81). *)
  Definition reset_dual (s : view) : view := new_dual s empty_tensor.
  (** [_reset_primal] (single_view/View.py:112-115) assigns [self._weight], an attribute
      that nothing reads. *)
  Definition reset_primal (s : view) : view := s.

  (** [a.copy_(b)]: a dimension of size one is repeated, another mismatch raises. *)
  Definition copy_into (dst src : tensor) : result tensor :=
    if ((Nat.eqb (rows src) (rows dst)) || (Nat.eqb (rows src) 1)) && ((Nat.eqb (cols src) (cols dst)) || (Nat.eqb (cols src) 1))
    then Ok (Tensor (cols dst)
               (let rs := map (expand (cols dst)) (t_rows src) in
                if Nat.eqb (rows src) (rows dst) then rs else match rs with r :: _ => repeat r (rows dst) | [] => [] end))
    else Err ERuntimeError.

  (** The [dual_param] getter (_View.py:166-173). *)
  Definition get_dual (s : view) : result tensor :=
    if exists_ (v_dual s)
    then bind (select (t_rows (p_val (v_dual s))) (v_idx s)) (fun r => Ok (Tensor (cols (p_val (v_dual s))) r))
    else Err ENotInitialized.
  (** The [dual_param] setter (189-213). *)
  Definition set_dual (s : view) (v : option tensor) : view :=
    match v with
    | Some t =>
        let d := p_val (v_dual s) in
        let s' := if exists_ (v_dual s) && (Nat.eqb (rows t) (rows d)) && (Nat.eqb (cols t) (cols d))
                  then with_dual s (Param (p_id (v_dual s)) t) else new_dual s t in
        reset_primal (with_out s' (Some (cols t)))
    | None => reset_primal (reset_dual s)
    end.
  (** [_init_dual] (87-92); [orth] is what the random initialisation gives. *)
  Definition init_dual (orth : nat -> nat -> tensor) (s : view) : result unit * view :=
    match v_total s, v_out s with
    | Some n, Some q => (Ok tt, set_dual s (Some (orth n q)))
    | _, _ => (Err EAssertionError, s)
    end.
  (** [update_dual] (175-187), called without [idx_sample]. *)
  Definition update_dual (orth : nat -> nat -> tensor) (s : view) (v : tensor) : result unit * view :=
    let '(r, s1) := if exists_ (v_dual s) then (Ok tt, s) else init_dual orth s in
    match r with
    | Err e => (Err e, s1)
    | Ok _ =>
        match bind (select (t_rows v) (v_idx s1)) (fun rs => copy_into (p_val (v_dual s1)) (Tensor (cols v) rs)) with
        | Err e => (Err e, s1)
        | Ok t => (Ok tt, reset_primal (with_dual s1 (Param (p_id (v_dual s1)) t)))
        end
    end.

  (** The [primal_param] getter (257-267). *)
  Definition get_primal (s : view) : result tensor :=
    match v_attached s with
    | Some w => Ok w
    | None => if exists_ (v_primal s) then Ok (p_val (v_primal s)) else Err ENotInitialized
    end.
  (** The [primal_param] setter (269-292).  The stored shape, which is transposed, is
      compared with the shape of the value, which is not. *)
  Definition set_primal (s : view) (v : option tensor) : result unit * view :=
    match v_attached s with
    | Some _ => (Err (EOther 1), s)
    | None =>
        let s1 := reset_dual s in
        match v with
        | None => (Ok tt, reset_primal s1)
        | Some t =>
            let p := p_val (v_primal s1) in
            let '(r, s2) :=
              if exists_ (v_primal s1) && (Nat.eqb (cols p) (rows t)) && (Nat.eqb (rows p) (cols t))
              then match copy_into p t with
                   | Err e => (Err e, s1)
                   | Ok t' => (Ok tt, with_primal s1 (Param (p_id (v_primal s1)) t'))
                   end
              else (Ok tt, new_primal s1 t) in
            match r with
            | Err e => (Err e, s2)
            | Ok _ => match get_primal s2 with
                      | Err e => (Err e, s2)
                      | Ok w => (Ok tt, with_out s2 (Some (cols w)))
                      end
            end
        end
    end.
  (** [_init_primal] (94-98). *)
  Definition init_primal (orth : nat -> nat -> tensor) (s : view) : result unit * view :=
    match v_out s with
    | None => (Err EAssertionError, s)
    | Some q => match v_feat s with
                | Err e => (Err e, s)
                | Ok d => set_primal s (Some (orth d q))
                end
    end.
  (** [init_parameters] (100-122). *)
  Definition init_parameters (orth : nat -> nat -> tensor) (primal overwrite : bool) (s : view) : result unit * view :=
    if primal
    then if overwrite || negb (exists_ (v_primal s)) then init_primal orth s else (Ok tt, s)
    else if overwrite || negb (exists_ (v_dual s)) then init_dual orth s else (Ok tt, s).
  (** The [dim_output] setter (158-162). *)
  Definition set_dim_output (s : view) (q : nat) : view := reset_dual (reset_primal (with_out s (Some q))).

  (** [attach_to] and [detach] (245-254).  [detach] sets [self._attached], which nothing
      reads, and assigns the primal variables. *)
  Definition attach (s : view) (w : tensor) : result unit * view :=
    match v_attached s with
    | Some _ => (Err EAssertionError, s)
    | None => (Ok tt, View (v_next s) (v_total s) (v_idx s) (v_feat s) (v_out s) (v_dual s) (v_primal s) (Some w))
    end.
  Definition detach (s : view) : result unit * view :=
    match get_primal s with
    | Err e => (Err e, s)
    | Ok w => set_primal s (Some w)
    end.

  (** Construction: the arguments of a level ([_View.__init__], lines 44-67), then the
      initialisation of the parameters ([_Level.__init__], _Level.py:28-32), where an
      [AssertionError] is ignored. *)
  Definition construct (orth : nat -> nat -> tensor) (primal : bool) (total : option nat) (idx : list Z) (feat : result nat)
      (out : option nat) (weight hidden : option tensor) : result view :=
    let s0 := View 2 total idx feat out (Param 0 empty_tensor) (Param 1 empty_tensor) None in
    let '(r, s1) := match weight with
                    | Some w => set_primal s0 (Some w)
                    | None => (Ok tt, set_dual s0 hidden)
                    end in
    match r with
    | Err e => Err e
    | Ok _ => match init_parameters orth primal true s1 with
              | (Ok _, s2) => Ok s2
              | (Err EAssertionError, s2) => Ok s2
              | (Err e, _) => Err e
              end
    end.

  (** ** Solving a KPCA *)

  (** A KPCA level has eigenvalues besides ([_KPCA.py:41-44]). *)
  Record kpca : Type := Kpca { k_view : view; k_vals : list F }.
  (** What is kept of the eigenvalues and vectors (lines 128-139, 161-172). *)
  Fixpoint keep {A} (small : F -> bool) (v : list F) (l : list A) : list A :=
    match v, l with
    | x :: v', a :: l' => if small x then keep small v' l' else a :: keep small v' l'
    | _, _ => []
    end.
  Definition prune (small : F -> bool) (v : list F) (e : tensor) : list F * tensor :=
    let v' := keep small v v in (v', Tensor (List.length v') (map (keep small v) (t_rows e))).
  (** [_solve_dual] (144-176), [_solve_primal] (111-142).  [eig k] is what [utils.eigs]
      gives for [k] requested components. *)
  Definition solve_dual (orth : nat -> nat -> tensor) (eig : nat -> list F * tensor) (small : F -> bool) (fact : F -> F)
      (s : kpca) : result unit * kpca :=
    let n := List.length (v_idx (k_view s)) in
    let s1 := match v_out (k_view s) with
              | None => with_out (k_view s) (Some n)
              | Some q => if Nat.ltb n q then set_dim_output (k_view s) n else k_view s
              end in
    let q := match v_out s1 with Some q => q | None => n end in
    let '(v, e) := eig q in
    let '(v', e') := prune small v e in
    let s2 := with_out s1 (Some (q - (List.length v - List.length v'))) in
    match update_dual orth s2 e' with
    | (Err x, s3) => (Err x, Kpca s3 (k_vals s))
    | (Ok _, s3) => (Ok tt, Kpca s3 (map fact v'))
    end.
  Definition solve_primal (eig : nat -> list F * tensor) (small : F -> bool) (s : kpca) : result unit * kpca :=
    match v_feat (k_view s) with
    | Err e => (Err e, s)
    | Ok d =>
        let s1 := match v_out (k_view s) with
                  | None => with_out (k_view s) (Some d)
                  | Some q => if Nat.ltb d q then set_dim_output (k_view s) d else k_view s
                  end in
        let q := match v_out s1 with Some q => q | None => d end in
        let '(v, e) := eig q in
        let '(v', e') := prune small v e in
        let s2 := with_out s1 (Some (q - (List.length v - List.length v'))) in
        match set_primal s2 (Some e') with
        | (Err x, s3) => (Err x, Kpca s3 (k_vals s))
        | (Ok _, s3) => (Ok tt, Kpca s3 v')
        end
    end.

  (** ** Histories *)
  Inductive vop : Type :=
  | VSetDual (v : option tensor) | VUpdateDual (v : tensor) | VSetPrimal (v : option tensor)
  | VSetDim (q : nat) | VInit (primal overwrite : bool) | VAttach (w : tensor) | VDetach.
  Definition vstep (orth : nat -> nat -> tensor) (s : view) (o : vop) : view :=
    match o with
    | VSetDual v => set_dual s v
    | VUpdateDual v => snd (update_dual orth s v)
    | VSetPrimal v => snd (set_primal s v)
    | VSetDim q => set_dim_output s q
    | VInit p w => snd (init_parameters orth p w s)
    | VAttach w => snd (attach s w)
    | VDetach => snd (detach s)
    end.
  Definition vrun (orth : nat -> nat -> tensor) (s : view) (os : list vop) : view := fold_left (vstep orth) os s.
End View.
Arguments param F : clear implicits.
Arguments view F : clear implicits.
Arguments kpca F : clear implicits.
Arguments vop F : clear implicits.
