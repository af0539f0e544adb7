(** The tree of transforms with its caches
    ([kerch/transform/Transform.py], [kerch/transform/TransformTree.py],
    [kerch/transform/all/*.py]).  Definitions only. *)
From Coq Require Import DecimalString.
From Verif Require Import Base Cache Beautify.
Open Scope string_scope.

(** A node is addressed by the classes from the node up to the root, so the
    parent of [c :: p] is [p] and the root (the [TransformTree] itself) is []. *)
Definition path : Type := list cls.

Fixpoint path_eqb (p q : path) : bool :=
  match p, q with
  | [], [] => true
  | a :: p', b :: q' => cls_eqb a b && path_eqb p' q'
  | _, _ => false
  end.

(** The [name] each class passes to [Transform.__init__] (MeanCentering.py:7,
    MinMaxNormalization.py:11-12, MinimumCentering.py:7-8, Sphere.py:8-9,
    Variance.py:8-9, TransformTree.py:91). *)
Definition node_name (p : path) : string :=
  match p with
  | [] => "base"
  | MeanCenter :: _ => "Mean centering"
  | MinMax :: _ => "Min Max Normalization"
  | MinCenter :: _ => "Minimum Centering"
  | Sphere :: _ => "Unit Sphere Normalization"
  | UnitVar :: _ => "Unit Variance Normalization"
  end.

(** [str(id(x))] (Transform.py:42-52): object identities are numbers. *)
Definition str_id (n : nat) : string := NilZero.string_of_uint (Nat.to_uint n).

(** The elements a node keeps (Transform.py:115,127,156,167,172,183,189,192,195). *)
Inductive tkey : Type :=
| KSample | KStat | KOos (x : nat) | KOos2 (x y : nat) | KOosStat (x : nat).

Definition key_suffix (k : tkey) : string :=
  match k with
  | KSample => " data_sample"
  | KStat => " statistics_sample"
  | KOos x => " data_oos_" ++ str_id x
  | KOos2 x y => " data_oos_" ++ str_id x ++ "_" ++ str_id y
  | KOosStat x => " statistics_oos_" ++ str_id x
  end.
Definition key_string (p : path) (k : tkey) : string := node_name p ++ key_suffix k.

(** The level key of each element (Transform.py:24-35 for the names;
    statistics of the sample are filed under the level of sample data, line 127). *)
Definition tkey_level_key (default : bool) (k : tkey) : level_key :=
  KStr (match k with
        | KSample | KStat =>
            if default then "transform_sample_data_default" else "transform_sample_data_nondefault"
        | KOos _ | KOos2 _ _ =>
            if default then "transform_oos_data_default" else "transform_oos_data_nondefault"
        | KOosStat _ =>
            if default then "transform_oos_statistics_default" else "transform_oos_statistics_nondefault"
        end).

(** Only out-of-sample statistics are written with [force] (156-157,167-168,172-173). *)
Definition tkey_force (k : tkey) : bool := match k with KOosStat _ => true | _ => false end.

Definition tkey_args (default : bool) (k : tkey) : get_args :=
  GetArgs (tkey_level_key default k) "normal" (tkey_force k) false false false.

(** Numerical content, which the state machine does not look into.  [V] are
    tensors (or pairs of tensors), [D] the contents of an input object. *)
Record numerics (V D : Type) : Type := Numerics {
  (** the base without argument: the sample, or the value of the closure
      (TransformTree.py:140-159) *)
  base_sample : result V;
  (** the base on one input, explicit formulation (182-185) *)
  base_oos : D -> result V;
  (** the base on inputs, implicit formulation (187-190) *)
  base_k : D -> option D -> result V;
  (** [_explicit_statistics]; the flag tells whether the parent is a
      [MinimumCentering] (MinMaxNormalization.py:14-20) *)
  estat : cls -> bool -> V -> V;
  (** the value returned by [_explicit_sample]/[_explicit_oos] from the parent's
      data and the statistics *)
  eapp : cls -> V -> V -> V;
  (** [_revert_explicit] from the value and the sample statistics *)
  erev : cls -> V -> V -> V;
  (** [_implicit_statistics] of the sample (MeanCentering.py:12-15, Sphere.py:14-18) *)
  istat : cls -> V -> result V;
  (** [_implicit_sample] (MeanCentering.py:21-24, Sphere.py:25-28) *)
  iapp_sample : cls -> V -> V -> V;
  (** out-of-sample statistics of mean centering from [parent.oos(x)] and the
      sample statistics (MeanCentering.py:29-31) *)
  imean_oos : V -> V -> V;
  (** [torch.diag(.)[:, None]] (Transform.py:210-211) and the square root taken
      by Sphere.py:38 *)
  idiag : V -> V;
  isqrt : V -> V;
  (** [_implicit_oos] from the parent's data and both statistics
      (MeanCentering.py:36-41, Sphere.py:45-49) *)
  iapp : cls -> V -> V -> V -> V;
  (** [.T] *)
  transp : V -> V }.
Arguments base_sample {V D} n. Arguments base_oos {V D} n x. Arguments base_k {V D} n x y.
Arguments estat {V D} n c b v. Arguments eapp {V D} n c v s. Arguments erev {V D} n c v s.
Arguments istat {V D} n c v. Arguments iapp_sample {V D} n c v s. Arguments imean_oos {V D} n v s.
Arguments idiag {V D} n v. Arguments isqrt {V D} n v. Arguments iapp {V D} n c v s t.
Arguments transp {V D} n v.

Section Tree.
  Context {V D : Type}.
  Variable num : numerics V D.
  (** [self.explicit] is fixed at construction and shared by all nodes
      (TransformTree.py:91,101,209). *)
  Variable explicit : bool.

  (** A node: the [default] flag and the cache (Transform.py:13-22). *)
  Record tnode : Type := TNode { n_default : bool; n_cache : cache V }.

  (** All nodes created so far, in order of creation. *)
  Definition nodes : Type := list (path * tnode).

  Fixpoint nget (t : nodes) (p : path) : option tnode :=
    match t with
    | [] => None
    | (q, n) :: t' => if path_eqb q p then Some n else nget t' p
    end.

  Fixpoint nset (t : nodes) (p : path) (n : tnode) : nodes :=
    match t with
    | [] => [(p, n)]
    | (q, m) :: t' => if path_eqb q p then (q, n) :: t' else (q, m) :: nset t' p n
    end.

  (** State: the nodes, the default path, and the contents of the objects of the
      caller by identity. *)
  Record tstate : Type := TState {
    t_nodes : nodes;
    t_default : path;
    t_heap : nat -> D }.
  Definition with_nodes (s : tstate) (t : nodes) : tstate := TState t (t_default s) (t_heap s).

  Definition M (A : Type) : Type := tstate -> result A * tstate.
  Definition mret {A} (r : result A) : M A := fun s => (r, s).
  Definition mbind {A B} (m : M A) (f : A -> M B) : M B :=
    fun s => match m s with
             | (Ok a, s') => f a s'
             | (Err e, s') => (Err e, s')
             end.

  (** [self._get(key, level_key, fun, force)] on node [p] (cache.py:136-180), where
      [fun] may use other nodes.  A node that does not exist cannot be called; the
      model marks this with [EOther 1]. *)
  Definition cached (p : path) (k : tkey) (f : M V) : M V :=
    fun s =>
      match nget (t_nodes s) p with
      | None => (Err (EOther 1), s)
      | Some n =>
          match dget (c_entries (n_cache n)) (key_string p k) with
          | Some e => (Ok (e_val e), s)
          | None =>
              match f s with
              | (Err e, s') => (Err e, s')
              | (Ok v, s') =>
                  match nget (t_nodes s') p with
                  | None => (Err (EOther 1), s')
                  | Some n' =>
                      let '(r, c) := save (n_cache n') (key_string p k) (Ok v)
                                          (tkey_args (n_default n') k) in
                      (r, with_nodes s' (nset (t_nodes s') p (TNode (n_default n') c)))
                  end
              end
          end
      end.

  Definition parent_is_min (p : path) : bool :=
    match p with MinCenter :: _ => true | _ => false end.

  (** ** Sample data and statistics *)

  (** [statistics_sample] of node [c :: p] (Transform.py:118-127); [psample] reads
      [self.parent.sample], [given] is the optional argument.  Classes without an
      implicit version raise [BijectionError] (103-104). *)
  Definition stat_of (c : cls) (p : path) (psample : M V) (given : option V) : M V :=
    cached (c :: p) KStat
      (mbind (match given with Some v => mret (Ok v) | None => psample end)
         (fun v => mret (if explicit then Ok (estat num c (parent_is_min p) v)
                         else match c with
                              | MeanCenter | Sphere => istat num c v
                              | _ => Err EBijection
                              end))).

  (** [_explicit_sample] / [_implicit_sample] (the [all/*.py] files;
      TransformTree.py:151-159 for the root; Transform.py:110-111 for classes
      without implicit version). *)
  Fixpoint compute_sample (p : path) : M V :=
    match p with
    | [] => mret (base_sample num)
    | c :: p' =>
        let psample := cached p' KSample (compute_sample p') in
        if explicit then
          mbind psample (fun v =>
          mbind (stat_of c p' psample (Some v)) (fun t =>
          mret (Ok (eapp num c v t))))
        else
          match c with
          | MeanCenter | Sphere =>
              mbind psample (fun v =>
              mbind (stat_of c p' psample (Some v)) (fun t =>
              mret (Ok (iapp_sample num c v t))))
          | _ => mret (Err EImplicit)
          end
    end.

  (** [node.sample] (Transform.py:113-116). *)
  Definition sample (p : path) : M V := cached p KSample (compute_sample p).

  (** [statistics_sample()] without argument on node [c :: p]. *)
  Definition stat (c : cls) (p : path) : M V := stat_of c p (sample p) None.

  (** ** Explicit out-of-sample data *)

  (** [_explicit_oos(x)] (all/*.py) with [statistics_oos(x, oos)]
      (Transform.py:147-157).  Only the sphere hands its [oos] over; for the other
      classes line 153 evaluates [parent.oos(x)] again and the result is ignored by
      [_explicit_statistics_oos], which returns the sample statistics. *)
  Fixpoint compute_eoos (p : path) (x : nat) : M V :=
    match p with
    | [] => fun s => (base_oos num (t_heap s x), s)
    | c :: p' =>
        let poos := cached p' (KOos x) (compute_eoos p' x) in
        mbind poos (fun o =>
        mbind (cached (c :: p') (KOosStat x)
                 (match c with
                  | Sphere => mret (Ok (estat num Sphere (parent_is_min p') o))
                  | _ => mbind poos (fun _ => stat c p')
                  end)) (fun t =>
        mret (Ok (eapp num c o t))))
    end.

  (** [oos(x)] (Transform.py:176-184). *)
  Definition eoos (p : path) (x : option nat) : M V :=
    match x with
    | None => compute_sample p
    | Some x => cached p (KOos x) (compute_eoos p x)
    end.

  (** ** Implicit out-of-sample data *)

  (** The dispatch of [oos(x, y)] (Transform.py:185-196) around [_implicit_oos]. *)
  Definition ioos_with (compute : nat -> option nat -> M V) (p : path) (x y : option nat) : M V :=
    match x, y with
    | None, None => compute_sample p
    | None, Some y => mbind (cached p (KOos y) (compute y None)) (fun v => mret (Ok (transp num v)))
    | Some x, None => cached p (KOos x) (compute x None)
    | Some x, Some y => cached p (KOos2 x y) (compute x (Some y))
    end.

  (** The out-of-sample statistics of point [z] in node [c :: p] (Transform.py:158-174,
      MeanCentering.py:29-31, Sphere.py:33-38); [poos] is [self.parent.oos]. *)
  Definition ostat_of (c : cls) (p : path) (poos : option nat -> option nat -> M V) (z : nat) : M V :=
    cached (c :: p) (KOosStat z)
      (match c with
       | MeanCenter =>
           mbind (poos (Some z) None) (fun _ =>
           mbind (poos (Some z) None) (fun o =>
           mbind (stat c p) (fun t =>
           mret (Ok (imean_oos num o t)))))
       | _ =>
           mbind (match p with
                  | [] => fun s => (base_k num (t_heap s z) (Some (t_heap s z)), s)
                  | _ :: _ => poos (Some z) (Some z)
                  end) (fun o => mret (Ok (isqrt num (idiag num o))))
       end).

  (** [_implicit_oos(x, y)] with [statistics_oos(x, y, oos)] (Transform.py:158-174).
      Mean centering: the statistics first, each of which evaluates [parent.oos]
      twice (line 161 and MeanCentering.py:30).  Sphere: the parent's data first,
      then the statistics from the parent's diagonal; the root computes it without
      caching (TransformTree.py:161-167, [diag_fun] is never given by the kernels).
      Other classes raise [BijectionError] (141-142). *)
  Fixpoint compute_ioos (p : path) (x : nat) (y : option nat) : M V :=
    match p with
    | [] => fun s => (base_k num (t_heap s x) (option_map (t_heap s) y), s)
    | c :: p' =>
        let poos := ioos_with (compute_ioos p') p' in
        let ostat := ostat_of c p' poos in
        let ystat := match y with None => stat c p' | Some y => ostat y end in
        match c with
        | MeanCenter =>
            mbind (ostat x) (fun tx =>
            mbind ystat (fun ty =>
            mbind (poos (Some x) y) (fun o =>
            mret (Ok (iapp num c o tx ty)))))
        | Sphere =>
            mbind (poos (Some x) y) (fun o =>
            mbind (ostat x) (fun tx =>
            mbind ystat (fun ty =>
            mret (Ok (iapp num c o tx ty)))))
        | _ => mret (Err EBijection)
        end
    end.

  Definition ioos (p : path) (x y : option nat) : M V := ioos_with (compute_ioos p) p x y.

  (** [oos(x, y)] of a node; the explicit formulation ignores [y]. *)
  Definition oos (p : path) (x y : option nat) : M V :=
    if explicit then eoos p x else ioos p x y.

  (** ** Growing, cleaning and levels *)

  (** [cache_level] of the root as a name, to create offspring with
      (Transform.py:213-218; KeyError if the level is not one of the five). *)
  Definition root_level (s : tstate) : result string :=
    match nget (t_nodes s) [] with
    | None => Err (EOther 1)
    | Some n => get_level_name (n_cache n)
    end.

  (** One turn of the loop of [_get_tree] (TransformTree.py:204-211). *)
  Definition ensure_node (p : path) : M unit :=
    fun s =>
      match nget (t_nodes s) p with
      | Some _ => (Ok tt, s)
      | None =>
          match root_level s with
          | Err e => (Err e, s)
          | Ok l => (Ok tt, with_nodes s (nset (t_nodes s) p (TNode false (init_cache (LStr l)))))
          end
      end.

  Fixpoint ensure_path (p : path) : M unit :=
    match p with
    | [] => mret (Ok tt)
    | c :: p' => mbind (ensure_path p') (fun _ => ensure_node (c :: p'))
    end.

  (** [_get_tree] (TransformTree.py:198-212): the path for a requested list; [None]
      is the default list. *)
  Definition get_tree (req : option (list treq)) : M path :=
    match req with
    | None => fun s => mbind (ensure_path (t_default s)) (fun _ => mret (Ok (t_default s))) s
    | Some l =>
        match beautify l with
        | Err e => mret (Err e)
        | Ok cs => mbind (ensure_path (rev cs)) (fun _ => mret (Ok (rev cs)))
        end
    end.

  (** [_clean_cache] of the root (Transform.py:238-245): every node is cleaned to
      its own level.  Python goes depth-first and stops at the first exception.  The
      model cleans the nodes in creation order and reports whether one raised: an
      exception needs a level that is not a number, all nodes have the same level
      and cleaning to such a level removes nothing, so the order is immaterial. *)
  Definition clean_node (n : tnode) : result unit * tnode :=
    let '(r, c) := clean_cache (n_cache n) None in (r, TNode (n_default n) c).
  Definition clean_all : M unit :=
    fun s =>
      let cleaned := map (fun pn => (fst pn, clean_node (snd pn))) (t_nodes s) in
      (if forallb (fun x => is_ok (fst (snd x))) cleaned then Ok tt else Err ETypeError,
       with_nodes s (map (fun x => (fst x, snd (snd x))) cleaned)).

  (** [apply] (TransformTree.py:214-236); cleaning does not happen when [oos]
      raises. *)
  Definition apply (x y : option nat) (req : option (list treq)) : M V :=
    mbind (get_tree req) (fun p =>
    mbind (oos p x y) (fun v =>
    mbind clean_all (fun _ => mret (Ok v)))).

  (** [projected_sample] (TransformTree.py:169-174). *)
  Definition projected_sample : M V := fun s => sample (t_default s) s.

  (** [_revert] of a node (Transform.py:198-208, all/*.py; the root returns the
      value, TransformTree.py:192-196). *)
  Definition revert_node (p : path) (v : V) : M V :=
    match p with
    | [] => mret (Ok v)
    | c :: p' =>
        if explicit then
          match c with
          | Sphere => mret (Err EBijection)
          | _ => mbind (stat c p') (fun t => mret (Ok (erev num c v t)))
          end
        else mret (Err EImplicit)
    end.
  Fixpoint revert_path (p : path) (v : V) : M V :=
    match p with
    | [] => revert_node [] v
    | c :: p' => mbind (revert_node (c :: p') v) (fun w => revert_path p' w)
    end.

  (** [revert] (TransformTree.py:238-254). *)
  Definition revert (v : V) (req : option (list treq)) : M V :=
    mbind (get_tree req) (fun p => revert_path p v).

  (** The level setter of the root (Transform.py:220-228): the value is resolved by
      the root and handed down. *)
  Definition set_tree_level (l : option lvl) : M unit :=
    fun s =>
      match nget (t_nodes s) [] with
      | None => (Err (EOther 1), s)
      | Some r =>
          let v := get_level (c_level (n_cache r)) l in
          (Ok tt, with_nodes s
             (map (fun pn => (fst pn, TNode (n_default (snd pn))
                                            (MkCache v (c_entries (n_cache (snd pn))))))
                  (t_nodes s)))
      end.

  (** Construction (TransformTree.py:90-110): the root, the default path, the
      [default] flag on its last node. *)
  Definition mark_default (t : nodes) (p : path) : nodes :=
    match nget t p with
    | Some n => nset t p (TNode true (n_cache n))
    | None => t
    end.
  Definition init_tree (req : list treq) (level : lvl) (heap : nat -> D) : result tstate :=
    match beautify req with
    | Err e => Err e
    | Ok cs =>
        let s0 := TState [([], TNode false (init_cache level))] (rev cs) heap in
        match ensure_path (rev cs) s0 with
        | (Err e, _) => Err e
        | (Ok _, s1) => Ok (with_nodes s1 (mark_default (t_nodes s1) (rev cs)))
        end
    end.

  (** ** Histories *)

  (** [THeap h]: objects of the caller are created, modified in place or freed. *)
  Inductive top : Type :=
  | TApply (x y : option nat) (req : option (list treq))
  | TSample
  | TRevert (v : V) (req : option (list treq))
  | TLevel (l : option lvl)
  | THeap (h : nat -> D).

  Inductive tout : Type := TVal (r : result V) | TDone.

  Definition tstep (s : tstate) (o : top) : tout * tstate :=
    match o with
    | TApply x y req => let '(r, s') := apply x y req s in (TVal r, s')
    | TSample => let '(r, s') := projected_sample s in (TVal r, s')
    | TRevert v req => let '(r, s') := revert v req s in (TVal r, s')
    | TLevel l => let '(_, s') := set_tree_level l s in (TDone, s')
    | THeap h => (TDone, TState (t_nodes s) (t_default s) h)
    end.

  Fixpoint trun (s : tstate) (os : list top) : list (top * (nat -> D) * tout) * tstate :=
    match os with
    | [] => ([], s)
    | o :: os' =>
        let '(r, s') := tstep s o in
        let '(rs, s'') := trun s' os' in
        ((o, t_heap s, r) :: rs, s'')
    end.
End Tree.

Arguments tstate V D : clear implicits.
Arguments tnode V : clear implicits.
Arguments nodes V : clear implicits.
Arguments top V D : clear implicits.
Arguments tout V : clear implicits.
