(** Hierarchies of caching modules: recursive reset, porting and propagation of
    the stochastic selection ([kerch/feature/cache.py],
    [kerch/feature/stochastic.py]).  Definitions only. *)
From Coq Require Import QArith Qround.
From Verif Require Import Base Cache Tree.
Open Scope Z_scope.

(** ** Recursive reset (cache.py:259-275) *)
Section Reset.
  Context {V : Type}.

  (** A registered submodule: either a kerch [Cache] or a plain torch module. *)
  Record cmodule : Type := CModule { cm_is_cache : bool; cm_cache : cache V }.

  (** [Cache.reset(recurse, reset_persisting)]: resets itself, then the children
      that are [Cache] instances (cache.py:271-275). *)
  Fixpoint reset (recurse reset_persisting : bool) (t : tree cmodule) : tree cmodule :=
    match t with
    | Node m ts =>
        Node (CModule (cm_is_cache m) (reset_cache (cm_cache m) reset_persisting []))
             (if recurse
              then map (fun t' => if cm_is_cache (root t') then reset recurse reset_persisting t' else t') ts
              else ts)
    end.

  (** [reset()] with the default arguments of the signature (cache.py:259):
      [recurse=False, reset_persisting=True]. *)
  Definition reset_default (t : tree cmodule) : tree cmodule := reset false true t.
End Reset.
Arguments cmodule V : clear implicits.

(** ** Level propagation (cache.py:60-66) *)

(** A value held in the cache of a module: a tensor or a transform tree, of
    which only the cache level matters here. *)
Inductive held : Type := HTensor | HTree (level : lvl).

(** The setter on a module holding transform trees.  The loop of lines 64-66
    runs over the stored triples [(level, persisting, value)]; [isinstance] of
    a tuple against [Cache] is false, so no held tree is updated. *)
Definition triple_is_cache {V} (e : entry V) : bool := false.

Definition set_level_held (c : cache held) (l : option lvl) : cache held :=
  let v := get_level (c_level c) l in
  MkCache v (map (fun p : string * entry held =>
                    let '(k, e) := p in
                    if triple_is_cache e
                    then (k, Entry (e_level e) (e_persisting e)
                                   (match e_val e with HTree _ => HTree v | HTensor => HTensor end))
                    else (k, e)) (c_entries c)).

(** The trees a module holds use the given level. *)
Definition held_at (c : cache held) (l : lvl) : Prop :=
  forall k e l', dget (c_entries c) k = Some e -> e_val e = HTree l' -> l' = l.

(** ** Porting (cache.py:78-97 and torch.nn.Module._apply) *)
Section Apply.
  Context {T : Type}.

  (** A module: whether it is a kerch [Cache], and the tensors it owns (cached
      tensors, parameters and buffers). *)
  Record pmodule : Type := PModule { pm_is_cache : bool; pm_tensors : list T }.

  Fixpoint rmap {A B} (f : A -> result B) (l : list A) : result (list B) :=
    match l with
    | [] => Ok []
    | a :: l' => match f a with
                 | Err e => Err e
                 | Ok b => match rmap f l' with Ok bs => Ok (b :: bs) | Err e => Err e end
                 end
    end.

  (** [_apply(fn)].  [fuel] is Python's recursion limit.  A [Cache] ports its
      cached tensors (87-93), then calls [_apply] on its children (94-96), then
      calls torch's [Module._apply] (97), which calls [_apply] on the children
      again and ports the parameters.  A plain torch module only does the
      latter.  The order of the two passes is irrelevant to the count. *)
  Fixpoint apply_fuel (fuel : nat) (fn : T -> T) (t : tree pmodule) : result (tree pmodule) :=
    match fuel with
    | O => Err ERuntimeError
    | S fuel' =>
        match t with
        | Node m ts =>
            let pass l := rmap (apply_fuel fuel' fn) l in
            let m' := PModule (pm_is_cache m) (map fn (pm_tensors m)) in
            if pm_is_cache m
            then match bind (pass ts) pass with
                 | Ok ts' => Ok (Node m' ts')
                 | Err e => Err e
                 end
            else match pass ts with
                 | Ok ts' => Ok (Node m' ts')
                 | Err e => Err e
                 end
        end
    end.
End Apply.
Arguments pmodule T : clear implicits.

(** The module graph of objects that hold transform trees is not a tree:
    assigning a module to an attribute registers it as a child
    (torch.nn.Module.__setattr__), so [_default_node] (TransformTree.py:104) is
    a child of the tree and [_parent] (Transform.py:85) a child of every
    offspring.  Nodes are numbered; each has children and cached modules. *)
Record gnode : Type := GNode { g_cached : list nat; g_children : list nat }.
Definition graph := list gnode.

Fixpoint riter (f : nat -> result unit) (l : list nat) : result unit :=
  match l with
  | [] => Ok tt
  | a :: l' => match f a with Ok _ => riter f l' | Err e => Err e end
  end.

(** [Cache._apply] on the graph: cached modules first (87-93), then the children
    (94-96), then the children again (97).  Tensors are left out. *)
Fixpoint apply_graph (fuel : nat) (g : graph) (i : nat) : result unit :=
  match fuel with
  | O => Err ERuntimeError
  | S fuel' =>
      match nth_error g i with
      | None => Ok tt
      | Some n =>
          match riter (apply_graph fuel' g) (g_cached n) with
          | Err e => Err e
          | Ok _ =>
              match riter (apply_graph fuel' g) (g_children n) with
              | Err e => Err e
              | Ok _ => riter (apply_graph fuel' g) (g_children n)
              end
          end
      end
  end.

(** A module (node 0) holding in its cache the transform tree (node 1) with a
    default chain of [n] transforms (nodes 2 .. n+1), as built by
    TransformTree.__init__ (TransformTree.py:98-105): the tree's only
    registered child is [_default_node], the last node of the chain (itself
    when the chain is empty), and each offspring's only registered child is its
    [_parent]. *)
Definition kernel_graph (n : nat) : graph :=
  GNode [1%nat] [] :: GNode [] [S n] :: map (fun i => GNode [] [S i]) (seq 0 n).

(** ** Stochastic selection (stochastic.py) *)
Section Stochastic.
  Context {V : Type}.

  Inductive mkind : Type := KPlain | KStochastic.

  (** State of a [Stochastic] module (stochastic.py:24-27): [_num_total] and
      [_idx_stochastic], both [None] initially, next to its cache. *)
  Record smodule : Type := SModule {
    sm_kind : mkind;
    sm_num : option Z;
    sm_idx : option (list Z);
    sm_cache : cache V }.

  Definition is_stochastic (m : smodule) : bool :=
    match sm_kind m with KStochastic => true | KPlain => false end.

  (** [range(n)] (stochastic.py:45-46). *)
  Definition range (n : Z) : list Z := map Z.of_nat (seq 0 (Z.to_nat n)).

  (** Python 3 [round] on an exact number: to the nearest, ties to even. *)
  Definition round_half_even (q : Q) : Z :=
    let f := Qfloor q in
    match Qcompare (q - inject_Z f) (1 # 2) with
    | Lt => f
    | Gt => f + 1
    | Eq => if Z.even f then f else f + 1
    end.

  (** A request: [stochastic(idx, prop)]; the last component is what
      [torch.randperm(n)] returns if it is called. *)
  Record request : Type := Request {
    r_idx : option (list Z);
    r_prop : option Q;
    r_perm : list Z }.

  (** The indices selected by lines 84-101, or the failing assertion.  The
      product [n * prop] is exact here (floating point in Python). *)
  Definition selection (n : Z) (r : request) : result (list Z) :=
    match r_idx r, r_prop r with
    | Some _, Some _ => Err EAssertionError
    | Some idx, None => Ok idx
    | None, Some p =>
        if Qle_bool p 1 then
          if negb (Qle_bool p 0) then
            Ok (firstn (Z.to_nat (round_half_even (inject_Z n * p))) (r_perm r))
          else Err EAssertionError
        else Err EAssertionError
    | None, None => Ok (range n)
    end.

  Definition idx_request (idx : list Z) : request := Request (Some idx) None [].
  Definition full_request : request := Request None None [].

  (** [Stochastic.stochastic] (stochastic.py:60-105).  Without [_num_total] it
      returns at once; otherwise the cache is reset before the assertions. *)
  Fixpoint stochastic (r : request) (t : tree smodule) : result unit * tree smodule :=
    match t with
    | Node m ts =>
        match sm_num m with
        | None => (Ok tt, t)
        | Some n =>
            let c := reset_cache (sm_cache m) false [] in
            match selection n r with
            | Err e => (Err e, Node (SModule (sm_kind m) (sm_num m) (sm_idx m) c) ts)
            | Ok idx =>
                (Ok tt,
                 Node (SModule (sm_kind m) (sm_num m) (Some idx) c)
                      (map (fun t' => if is_stochastic (root t')
                                      then snd (stochastic (idx_request idx) t') else t') ts))
            end
        end
    end.

  (** [train(mode)] (stochastic.py:48-58): torch's [train] first recurses into
      the children; then, in evaluation mode, the full sample is selected. *)
  Fixpoint train (mode : bool) (t : tree smodule) : tree smodule :=
    match t with
    | Node m ts =>
        let t' := Node m (map (train mode) ts) in
        if is_stochastic m && negb mode then snd (stochastic full_request t') else t'
    end.
End Stochastic.
Arguments smodule V : clear implicits.
