(** The state of a Nystrom kernel and of its base kernel ([kerch/kernel/nystrom.py]).
    Definitions only. *)
From Verif Require Import Base.
Open Scope Z_scope.

Section Nystrom.
  Context {Row P : Type}.
  (** The numbers of eigenvalues at or above the threshold among the [k] largest, for
      the base kernel of given parameters on given points. *)
  Variable rank : P -> list Row -> Z -> Z.

  (** A decomposition is known by the base parameters and the points of the kernel matrix,
      and by the number of eigenpairs kept. *)
  Record decomp : Type := Decomp { d_param : P; d_rows : list Row; d_dim : Z }.

  (** The Nystrom kernel: its sample and selection, those of its base kernel (a child
      module) with its parameters, the requested dimension ([self._dim], and whether it is
      still the Python integer given by the user), the cache level and the cached features
      of the sample.  Samples are not transformed here. *)
  Record nstate : Type := NState {
    n_rows : list Row; n_idx : list nat; b_rows : list Row; b_idx : list nat; b_param : P;
    n_dim : Z; n_int : bool; n_level : nat; n_phi : option decomp }.

  (** [sample[idx, :]] (sample.py:155). *)
  Fixpoint rows_at (rows : list Row) (idx : list nat) : result (list Row) :=
    match idx with
    | [] => Ok []
    | i :: idx' =>
        match nth_error rows i with
        | None => Err EIndexError
        | Some r => bind (rows_at rows idx') (fun rs => Ok (r :: rs))
        end
    end.

  (** [stochastic] (stochastic.py:60-105), which also selects in the base kernel. *)
  Definition stochastic (s : nstate) (idx : list nat) : nstate :=
    NState (n_rows s) idx (b_rows s) idx (b_param s) (n_dim s) (n_int s) (n_level s) None.
  Definition all_rows (rows : list Row) : list nat := seq 0 (List.length rows).

  (** [init_sample] (nystrom.py:110-113): the selection is set on both, then the points
      selected are handed to the base kernel, together with the selection. *)
  Definition init_sample (s : nstate) (rows : list Row) (idx : option (list nat)) : result unit * nstate :=
    let idx := match idx with Some l => l | None => all_rows rows end in
    let s := NState rows idx (b_rows s) idx (b_param s) (n_dim s) (n_int s) (n_level s) None in
    match rows_at rows idx with
    | Err e => (Err e, s)
    | Ok cur => (Ok tt, NState rows idx cur idx (b_param s) (n_dim s) (n_int s) (n_level s) None)
    end.

  (** The constructor (nystrom.py:42-70), with a base kernel created by the factory or
      an existing one.  A given dimension is not checked. *)
  Definition new (p : P) (rows : list Row) (idx : option (list nat)) (dim : option Z) (level : nat) : result nstate :=
    let n := Z.of_nat (List.length rows) in
    let d := match dim with Some d => d | None => n end in
    match init_sample (NState [] [] [] [] p d (match dim with Some _ => true | None => false end) level None) rows idx with
    | (Ok _, s) => Ok s
    | (Err e, _) => Err e
    end.
  Definition new_on (p : P) (rows : list Row) (idx : list nat) (dim : option Z) (level : nat) : nstate :=
    NState rows idx rows idx p (match dim with Some d => d | None => Z.of_nat (List.length rows) end)
           (match dim with Some _ => true | None => false end) level None.

  (** The [dim] setter and getter (nystrom.py:72-86): the getter calls a method of
      tensors. *)
  Definition set_dim (s : nstate) (d : Z) : result unit * nstate :=
    if Z.of_nat (List.length (n_rows s)) <? d then (Err EAssertionError, s)
    else (Ok tt, NState (n_rows s) (n_idx s) (b_rows s) (b_idx s) (b_param s) d false (n_level s) None).
  Definition get_dim (s : nstate) : result Z := if n_int s then Err EAttributeError else Ok (n_dim s).

  (** [_compute_decomposition] (nystrom.py:115-153).  The test of line 117 looks for a key
      that is never saved: the decomposition is always computed.  [utils.eigs] asserts that
      no more eigenvectors are requested than rows (math.py:33).  [rank] is meant for at
      least one requested eigenvector. *)
  Definition compute (s : nstate) : result decomp * nstate :=
    match rows_at (b_rows s) (b_idx s) with
    | Err e => (Err e, s)
    | Ok rows =>
        if Z.of_nat (List.length rows) <? n_dim s then (Err EAssertionError, s)
        else
          let r := rank (b_param s) rows (n_dim s) in
          (Ok (Decomp (b_param s) rows r),
           if r <? n_dim s
           then NState (n_rows s) (n_idx s) (b_rows s) (b_idx s) (b_param s) r false (n_level s) (n_phi s)
           else s)
    end.

  (** [_explicit_with_none] (nystrom.py:157-163): the elements are read from the cache; they
      are saved at level 'light' (1), so that at level 'none' (0) nothing is there and
      [None()] is called (cache.py:131). *)
  Definition elements (s : nstate) : result decomp * nstate :=
    match compute s with
    | (Err e, s') => (Err e, s')
    | (Ok d, s') => if Nat.eqb (n_level s) 0 then (Err ETypeError, s') else (Ok d, s')
    end.

  (** [Phi] (kernel.py:148-158): cached at level 'light'. *)
  Definition phi (s : nstate) : result decomp * nstate :=
    match n_phi s with
    | Some d => (Ok d, s)
    | None =>
        match elements s with
        | (Err e, s') => (Err e, s')
        | (Ok d, s') => (Ok d, NState (n_rows s') (n_idx s') (b_rows s') (b_idx s') (b_param s') (n_dim s') (n_int s') (n_level s') (Some d))
        end
    end.
  (** [phi(x)]: the decomposition used for the features of other points. *)
  Definition phi_oos (s : nstate) : result decomp * nstate := elements s.
  (** [dim_feature] (nystrom.py:88-91). *)
  Definition dim_feature (s : nstate) : result Z * nstate :=
    match compute s with
    | (Err e, s') => (Err e, s')
    | (Ok _, s') => (get_dim s', s')
    end.

  (** Changing the base kernel, which does not know the Nystrom kernel. *)
  Definition set_base_param (s : nstate) (p : P) : nstate :=
    NState (n_rows s) (n_idx s) (b_rows s) (b_idx s) p (n_dim s) (n_int s) (n_level s) (n_phi s).

  (** Histories. *)
  Inductive nop : Type :=
  | NStochastic (idx : list nat)
  | NInit (rows : list Row) (idx : option (list nat))
  | NSetDim (d : Z)
  | NBase (p : P)
  | NPhi
  | NPhiOos
  | NDimFeature.
  Definition nstep (s : nstate) (o : nop) : nstate :=
    match o with
    | NStochastic idx => stochastic s idx
    | NInit rows idx => snd (init_sample s rows idx)
    | NSetDim d => snd (set_dim s d)
    | NBase p => set_base_param s p
    | NPhi => snd (phi s)
    | NPhiOos => snd (phi_oos s)
    | NDimFeature => snd (dim_feature s)
    end.
  Definition nrun (s : nstate) (os : list nop) : nstate := fold_left nstep os s.
End Nystrom.
Arguments decomp Row P : clear implicits.
Arguments nstate Row P : clear implicits.
Arguments nop Row P : clear implicits.
