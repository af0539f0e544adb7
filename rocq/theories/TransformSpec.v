(** What a chain of transforms is meant to compute, without trees or caches, and
    the vocabulary in which the properties of the tree are stated. *)
From Verif Require Import Base Cache CacheSpec Beautify TransformTree.
Open Scope string_scope.
Open Scope Z_scope.

Section Pure.
  Context {V D : Type}.
  Variable num : numerics V D.

  (** ** Explicit formulation.  Chains are written from the last transform to the
      first, like the addresses of nodes. *)

  (** The sample after the chain: each transform is fitted on the sample produced
      by the transforms before it. *)
  Fixpoint chain_sample (p : path) : result V :=
    match p with
    | [] => base_sample num
    | c :: p' => bind (chain_sample p') (fun v =>
                 Ok (eapp num c v (estat num c (parent_is_min p') v)))
    end.
  Definition chain_stat (c : cls) (p : path) : result V :=
    bind (chain_sample p) (fun v => Ok (estat num c (parent_is_min p) v)).

  (** New data after the chain: the statistics are those of the sample, except for
      the sphere, which uses the norms of the data themselves. *)
  Fixpoint chain_oos (p : path) (x : D) : result V :=
    match p with
    | [] => base_oos num x
    | c :: p' => bind (chain_oos p' x) (fun o =>
                 bind (match c with
                       | Sphere => Ok (estat num Sphere (parent_is_min p') o)
                       | _ => chain_stat c p'
                       end) (fun t => Ok (eapp num c o t)))
    end.

  (** Undoing the chain. *)
  Fixpoint chain_revert (p : path) (v : V) : result V :=
    match p with
    | [] => Ok v
    | Sphere :: _ => Err EBijection
    | c :: p' => bind (chain_stat c p') (fun t => chain_revert p' (erev num c v t))
    end.

  (** ** Implicit formulation (kernel matrices) *)

  Fixpoint kchain_sample (p : path) : result V :=
    match p with
    | [] => base_sample num
    | c :: p' =>
        match c with
        | MeanCenter | Sphere =>
            bind (kchain_sample p') (fun v => bind (istat num c v) (fun t =>
            Ok (iapp_sample num c v t)))
        | _ => Err EImplicit
        end
    end.
  Definition kchain_stat (c : cls) (p : path) : result V :=
    bind (kchain_sample p) (fun v =>
      match c with MeanCenter | Sphere => istat num c v | _ => Err EBijection end).

  (** Statistics of new points, given the parent's kernel function [k]. *)
  Definition kpoint_stat (c : cls) (p : path) (k : D -> option D -> result V) (z : D) : result V :=
    match c with
    | MeanCenter => bind (k z None) (fun o => bind (kchain_stat c p) (fun t => Ok (imean_oos num o t)))
    | _ => bind (k z (Some z)) (fun o => Ok (isqrt num (idiag num o)))
    end.

  (** Kernel of new points [x] with new points [y], or with the sample. *)
  Fixpoint kchain (p : path) (x : D) (y : option D) : result V :=
    match p with
    | [] => base_k num x y
    | c :: p' =>
        let yst := match y with None => kchain_stat c p' | Some y => kpoint_stat c p' (kchain p') y end in
        match c with
        | MeanCenter =>
            bind (kpoint_stat c p' (kchain p') x) (fun tx => bind yst (fun ty =>
            bind (kchain p' x y) (fun o => Ok (iapp num c o tx ty))))
        | Sphere =>
            bind (kchain p' x y) (fun o => bind (kpoint_stat c p' (kchain p') x) (fun tx =>
            bind yst (fun ty => Ok (iapp num c o tx ty))))
        | _ => Err EBijection
        end
    end.

  (** ** What evaluations should return, given the contents of the objects *)

  Definition requested (default : path) (req : option (list treq)) : result path :=
    match req with
    | None => Ok default
    | Some l => bind (beautify l) (fun cs => Ok (rev cs))
    end.

  Definition value_of (explicit : bool) (p : path) (x y : option D) : result V :=
    if explicit then
      match x with None => chain_sample p | Some x => chain_oos p x end
    else
      match x, y with
      | None, None => kchain_sample p
      | None, Some y => bind (kchain p y None) (fun v => Ok (transp num v))
      | Some x, y => kchain p x y
      end.

  Definition sample_of (explicit : bool) (p : path) : result V :=
    if explicit then chain_sample p else kchain_sample p.

  Definition revert_of (explicit : bool) (p : path) (v : V) : result V :=
    if explicit then chain_revert p v
    else match p with [] => Ok v | _ => Err EImplicit end.

  (** A step shows what the chain gives for the contents of the objects now. *)
  Definition output_is_right (explicit : bool) (default : path) (e : top V D * (nat -> D) * tout V) : Prop :=
    match e with
    | (TApply x y req, heap, r) =>
        r = TVal (bind (requested default req)
                       (fun p => value_of explicit p (option_map heap x) (option_map heap y)))
    | (TSample, _, r) => r = TVal (sample_of explicit default)
    | (TRevert v req, _, r) =>
        r = TVal (bind (requested default req) (fun p => revert_of explicit p v))
    | (TLevel _, _, r) | (THeap _, _, r) => r = TDone
    end.

  (** ** Admissible histories *)

  Definition mentions (k : tkey) (x : nat) : Prop :=
    match k with
    | KSample | KStat => False
    | KOos z | KOosStat z => x = z
    | KOos2 z w => x = z \/ x = w
    end.

  (** Some node still keeps a value computed from object [x]. *)
  Definition holds (s : tstate V D) (x : nat) : Prop :=
    exists p n k e, nget (t_nodes s) p = Some n /\
      stored (n_cache n) (key_string p k) = Some e /\ mentions k x.

  Definition documented_level (l : option lvl) : Prop :=
    match l with
    | None => True
    | Some (LInt z) => 0 <= z <= 4
    | Some (LStr s) => known_name s
    end.

  (** An operation is admissible when level names are documented ones and the
      objects modified are not ones a value is kept of. *)
  Definition tadmissible (s : tstate V D) (o : top V D) : Prop :=
    match o with
    | TLevel l => documented_level l
    | THeap h => forall x, holds s x -> h x = t_heap s x
    | _ => True
    end.

  Fixpoint tadmissible_history (explicit : bool) (s : tstate V D) (os : list (top V D)) : Prop :=
    match os with
    | [] => True
    | o :: os' => tadmissible s o /\ tadmissible_history explicit (snd (tstep num explicit s o)) os'
    end.

  (** The level shared by the nodes of a tree. *)
  Definition tree_level (s : tstate V D) : option lvl :=
    option_map (fun n => c_level (n_cache n)) (nget (t_nodes s) []).
  (** Histories that stay at the two lowest levels, and evaluations that return. *)
  Definition light_op (o : top V D) : Prop :=
    match o with
    | TLevel (Some (LInt z)) => 0 <= z <= 1
    | TLevel (Some (LStr l)) => In l ["none"; "light"]
    | _ => True
    end.

  Definition succeeded (r : tout V) : Prop := match r with TVal (Err _) => False | _ => True end.
End Pure.

(** ** Documented levels of out-of-sample values *)

(** [DEFAULT_CACHE_LEVEL] (defaults.py:26-29) and cache.rst:44-48: the level from
    which a value about an out-of-sample object may be kept. *)
Definition documented_from (default : bool) (k : tkey) : Z :=
  match k with
  | KSample | KStat => 0
  | KOosStat _ => if default then 2 else 3
  | KOos _ | KOos2 _ _ => if default then 3 else 4
  end.
