(** A kernel object with parameters through its life, for kernels whose feature
    map or kernel function is computed directly from the parameters
    ([kerch/kernel/kernel.py:127-264], [kernel/_base_kernel.py:88-108], without
    default transforms).  Definitions only; the classes are instances of this
    machine in [ParamKernelInst.v].

    Simplifications: the (projected) sample is a fixed value, since changes of the
    sample are the subject of [KernelState.v]; matrices of features, kernel matrices
    and preimages are opaque; objects passed by the caller are named by their
    identity and never change (the effect of changes is the subject of
    [TransformTree.v]). *)
From Verif Require Import Base Cache CacheReader.
Open Scope string_scope.
Open Scope Z_scope.

Section Param.
  (** Parameters, inputs, matrices, auxiliary values, assignments. *)
  Context {T X Mx Ax O : Type}.

  (** What distinguishes the classes:
      - [explicit]: the [explicit] property;
      - [feat]: [_explicit], which may use the auxiliary value when [needs_aux];
      - [kfun]: [_implicit];
      - [gram]: [phi @ phi.T];
      - [aux], [akey], [aargs]: a helper value the class keeps itself through [_get];
      - [pre]: [_explicit_preimage] from the helper value;
      - [assign]: what a setter does: outcome, arguments of [_reset_cache] if it is
        called, new parameters. *)
  Variable explicit : T -> bool.
  Variable needs_aux : bool.
  Variable feat : T -> option Ax -> X -> result Mx.
  Variable kfun : T -> X -> X -> result Mx.
  Variable gram : Mx -> Mx.
  Variable aux : T -> result Ax.
  Variable akey : string.
  Variable aargs : get_args.
  Variable pre : T -> Ax -> Mx -> result Mx.
  Variable assign : O -> T -> result unit * option bool * T.
  Variable data : nat -> X.
  Variable sample : X.

  (** Values in the cache: a transform tree with its level, the memoised sample
      value of its default node and the memoised values of its base node for
      out-of-sample objects; matrices; the helper value. *)
  Inductive pval : Type :=
  | PTree (level : lvl) (memo : option Mx) (oos : list (nat * Mx))
  | PMat (m : Mx)
  | PAux (a : Ax).

  Record pstate : Type := PState { p_par : T; p_cache : cache pval }.

  Definition key_args (key : string) : get_args := GetArgs (KStr key) "normal" false false false false.

  (** The trees are stored in the cache of the kernel (kernel.py:127-146) with the
      level the kernel has at that moment. *)
  Definition tree (key : string) : reader pval pval :=
    rget key (key_args key)
      (fun c => (Ok (PTree (get_level (LInt 2) (Some (c_level c))) None []), c)).

  (** Levels under which the root of a tree files sample data (Transform.py:26-35,
      115) and out-of-sample data (Transform.py:183,192: the level key is absent
      from the table, so the fallback "normal" applies). *)
  Definition sample_level : lvl := entry_level (LInt 2) (KStr "transform_sample_data_default") "normal".
  Definition oos_level : lvl := entry_level (LInt 2) (KStr "transform_oos_data_default") "normal".

  Fixpoint oget (l : list (nat * Mx)) (x : nat) : option Mx :=
    match l with
    | [] => None
    | (y, m) :: l' => if Nat.eqb y x then Some m else oget l' x
    end.

  (** [tree.projected_sample] (TransformTree.py:169-174, Transform.py:113-116). *)
  Definition tree_sample (key : string) (compute : reader pval Mx) : reader pval Mx :=
    rbind (tree key) (fun v =>
      match v with
      | PTree l (Some m) _ => rret (Ok m)
      | PTree l None oos =>
          rbind compute (fun m =>
            match lvl_le sample_level l with
            | Err e => rret (Err e)
            | Ok true => rbind (rpoke key (PTree l (Some m) oos)) (fun _ => rret (Ok m))
            | Ok false => rret (Ok m)
            end)
      | _ => rret (Err EAttributeError)
      end).

  (** [tree.apply(x)] (TransformTree.py:214-236 with Transform.py:176-196): without
      object the base is evaluated anew; with an object the value is memoised by
      identity.  The final cleaning of the tree keeps both kinds of values, since
      they are only stored when the level of the tree allows. *)
  Definition tree_oos (key : string) (x : option nat) (compute : X -> reader pval Mx) : reader pval Mx :=
    rbind (tree key) (fun v =>
      match v, x with
      | PTree l memo oos, None => compute sample
      | PTree l memo oos, Some x =>
          match oget oos x with
          | Some m => rret (Ok m)
          | None =>
              rbind (compute (data x)) (fun m =>
                match lvl_le oos_level l with
                | Err e => rret (Err e)
                | Ok true => rbind (rpoke key (PTree l memo ((x, m) :: oos))) (fun _ => rret (Ok m))
                | Ok false => rret (Ok m)
                end)
          end
      | _, _ => rret (Err EAttributeError)
      end).

  (** The helper value kept by the class. *)
  Definition read_aux (t : T) : reader pval Ax :=
    rbind (rget akey aargs (rret (bind (aux t) (fun a => Ok (PAux a))))) (fun v =>
      match v with PAux a => rret (Ok a) | _ => rret (Err ETypeError) end).

  (** [_explicit(x)]. *)
  Definition compute_feat (t : T) (x : X) : reader pval Mx :=
    if needs_aux then rbind (read_aux t) (fun a => rret (feat t (Some a) x))
    else rret (feat t None x).

  Definition as_mat (v : pval) : result Mx := match v with PMat m => Ok m | _ => Err ETypeError end.

  (** The [Phi] property through [_phi] (_base_kernel.py:278-286, kernel.py:148-158). *)
  Definition read_Phi (t : T) : reader pval Mx :=
    rbind (rget "phi" (key_args "sample_phi")
             (rbind (tree_sample "kernel_explicit_transform" (compute_feat t sample))
                    (fun m => rret (Ok (PMat m)))))
          (fun v => rret (as_mat v)).

  (** The [K] property through [_K] (_base_kernel.py:256-266, kernel.py:173-193). *)
  Definition read_K (t : T) : reader pval Mx :=
    rbind (rget "K" (key_args "sample_K")
             (if explicit t then rbind (read_Phi t) (fun m => rret (Ok (PMat (gram m))))
              else rbind (tree_sample "kernel_implicit_transform" (rret (kfun t sample sample)))
                         (fun m => rret (Ok (PMat m)))))
          (fun v => rret (as_mat v)).

  (** [phi(x)] (kernel.py:196-209). *)
  Definition read_phi (t : T) (x : option nat) : reader pval Mx :=
    tree_oos "kernel_explicit_transform" x (compute_feat t).

  (** [k(x)] in the implicit formulation: new points against the sample
      (kernel.py:251-264). *)
  Definition read_k (t : T) (x : option nat) : reader pval Mx :=
    tree_oos "kernel_implicit_transform" x (fun x => rret (kfun t x sample)).

  (** [explicit_preimage(phi)] (kernel.py:347-390). *)
  Definition read_preimage (t : T) (m : Mx) : reader pval Mx :=
    rbind (read_aux t) (fun a => rret (pre t a m)).

  (** ** Histories *)
  Inductive pop : Type :=
  | PAssign (o : O)
  | PLevel (l : option lvl)
  | PReset (persisting : bool)
  | PReadPhi | PReadK | PReadphi (x : option nat) | PReadk (x : option nat) | PPreimage (m : Mx).

  Inductive pout : Type := POut (r : result Mx) | PUnit (r : result unit).

  Definition reading (s : pstate) (m : T -> reader pval Mx) : pout * pstate :=
    let '(r, c) := m (p_par s) (p_cache s) in (POut r, PState (p_par s) c).

  Definition pstep (s : pstate) (o : pop) : pout * pstate :=
    match o with
    | PAssign o =>
        let '(r, reset, t) := assign o (p_par s) in
        (PUnit r, PState t (match reset with
                            | Some persisting => reset_cache (p_cache s) persisting []
                            | None => p_cache s
                            end))
    | PLevel l => (PUnit (Ok tt), PState (p_par s) (set_level (p_cache s) l))
    | PReset p => (PUnit (Ok tt), PState (p_par s) (reset_cache (p_cache s) p []))
    | PReadPhi => reading s read_Phi
    | PReadK => reading s read_K
    | PReadphi x => reading s (fun t => read_phi t x)
    | PReadk x => reading s (fun t => read_k t x)
    | PPreimage m => reading s (fun t => read_preimage t m)
    end.

  (** Each output with the parameters in force and the operation. *)
  Fixpoint prun (s : pstate) (os : list pop) : list (T * pop * pout) * pstate :=
    match os with
    | [] => ([], s)
    | o :: os' =>
        let '(r, s') := pstep s o in
        let '(rs, s'') := prun s' os' in
        ((p_par s, o, r) :: rs, s'')
    end.

  Definition new_param (t : T) (level : lvl) : pstate := PState t (init_cache level).
End Param.
Arguments pval Mx Ax : clear implicits.
Arguments pstate T Mx Ax : clear implicits.
Arguments pop Mx O : clear implicits.
Arguments pout Mx : clear implicits.
