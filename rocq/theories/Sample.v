(** Model of [kerch/feature/sample.py]: the sample of a module, its
    dimensions, the selected indices and the cached values that depend on it.
    Definitions only. *)
From Coq Require Import QArith.
From Verif Require Import Base Cache Tree ModuleTree.
Open Scope Z_scope.

Section Sample.
  Context {F V : Type}.

  (** A two-dimensional tensor: number of columns and the list of its rows. *)
  Record tensor : Type := Tensor { t_cols : nat; t_rows : list (list F) }.

  Definition nrows (t : tensor) : Z := Z.of_nat (List.length (t_rows t)).
  Definition ncols (t : tensor) : Z := Z.of_nat (t_cols t).

  (** [t.nelement() == 0] (sample.py:97). *)
  Definition no_element (t : tensor) : bool := (nrows t * ncols t =? 0).

  (** The state of a [Sample] object (sample.py:55-70, stochastic.py:24-27).
      [ss_grad] is [self._sample.grad]. *)
  Record sstate : Type := SState {
    ss_sample : tensor;
    ss_num : option Z;
    ss_dim : option Z;
    ss_idx : option (list Z);
    ss_trainable : bool;
    ss_grad : option tensor;
    ss_cache : cache V }.

  Definition empty_sample (s : sstate) : bool := no_element (ss_sample s).

  (** Position addressed by a Python index in a tensor of [n] rows: negative
      indices count from the end, others out of range raise [IndexError]. *)
  Definition position (n : Z) (i : Z) : result nat :=
    if (0 <=? i) && (i <? n) then Ok (Z.to_nat i)
    else if (- n <=? i) && (i <? 0) then Ok (Z.to_nat (i + n))
    else Err EIndexError.

  (** [sample[idx, :]] (sample.py:155, 257). *)
  Fixpoint select (rows : list (list F)) (idx : list Z) : result (list (list F)) :=
    match idx with
    | [] => Ok []
    | i :: idx' =>
        bind (position (Z.of_nat (List.length rows)) i) (fun p =>
        bind (select rows idx') (fun r => Ok (nth p rows [] :: r)))
    end.

  (** All positions, or [IndexError]: torch checks them before writing. *)
  Fixpoint positions (n : Z) (idx : list Z) : result (list nat) :=
    match idx with
    | [] => Ok []
    | i :: idx' => bind (position n i) (fun p => bind (positions n idx') (fun r => Ok (p :: r)))
    end.

  Fixpoint set_nth {A} (l : list A) (p : nat) (x : A) : list A :=
    match l, p with
    | [], _ => []
    | _ :: l', O => x :: l'
    | y :: l', S p' => y :: set_nth l' p' x
    end.

  (** Broadcasting of a row of length 1 to the width of the target; another
      width than 1 or the target's raises [RuntimeError]. *)
  Definition expand (cols : nat) (row : list F) : list F :=
    match row with [x] => repeat x cols | _ => row end.

  (** [sample.data[idx, :] = values] (sample.py:233): the rows are written one
      after the other (torch's CPU kernel; with repeated indices torch leaves
      the order open). *)
  Definition write_rows (t : tensor) (idx : list Z) (values : tensor) : result tensor :=
    match positions (nrows t) idx with
    | Err e => Err e
    | Ok ps =>
        if (Nat.eqb (t_cols values) (t_cols t)) || (Nat.eqb (t_cols values) 1)
        then Ok (Tensor (t_cols t)
                   (fold_left (fun rows pv => set_nth rows (fst pv) (expand (t_cols t) (snd pv)))
                              (combine ps (t_rows values)) (t_rows t)))
        else Err ERuntimeError
    end.

  Definition with_sample (s : sstate) (t : tensor) : sstate :=
    SState t (ss_num s) (ss_dim s) (ss_idx s) (ss_trainable s) (ss_grad s) (ss_cache s).
  Definition with_cache (s : sstate) (c : cache V) : sstate :=
    SState (ss_sample s) (ss_num s) (ss_dim s) (ss_idx s) (ss_trainable s) (ss_grad s) c.

  (** [Stochastic.stochastic] (stochastic.py:60-105) on an object without
      stochastic children (kernels have none); see [ModuleTree.stochastic] for
      the recursive version. *)
  Definition select_idx (s : sstate) (r : request) : result unit * sstate :=
    match ss_num s with
    | None => (Ok tt, s)
    | Some n =>
        let s' := with_cache s (reset_cache (ss_cache s) false []) in
        match selection n r with
        | Err e => (Err e, s')
        | Ok idx => (Ok tt, SState (ss_sample s') (ss_num s') (ss_dim s') (Some idx)
                                   (ss_trainable s') (ss_grad s') (ss_cache s'))
        end
    end.

  (** The data handed to [init_sample] after [castf] (sample.py:178): nothing,
      an external parameter (with its [requires_grad] and gradient) or a tensor. *)
  Inductive sample_arg : Type :=
  | NoSample
  | ParamSample (t : tensor) (requires_grad : bool) (grad : option tensor)
  | DataSample (t : tensor).

  (** What [torch.nn.init.orthogonal_] produces for given dimensions. *)
  Variable orth : nat -> nat -> list (list F).

  (** [init_sample] (sample.py:157-203).  A negative dimension makes
      [torch.empty] raise. *)
  Definition init_sample (s : sstate) (a : sample_arg) (r : request) : result unit * sstate :=
    match a with
    | NoSample =>
        match ss_num s with
        | None => (Ok tt, s)
        | Some n =>
            match ss_dim s with
            | None => (Err ENotInitialized, s)
            | Some d =>
                if (n <? 0) || (d <? 0) then (Err ERuntimeError, s)
                else
                  let t := Tensor (Z.to_nat d) (orth (Z.to_nat n) (Z.to_nat d)) in
                  select_idx (SState t (Some n) (Some d) (ss_idx s) (ss_trainable s) None (ss_cache s)) r
            end
        end
    | ParamSample t rg g =>
        select_idx (SState t (Some (nrows t)) (Some (ncols t)) (ss_idx s) rg g (ss_cache s)) r
    | DataSample t =>
        select_idx (SState t (Some (nrows t)) (Some (ncols t)) (ss_idx s) (ss_trainable s) None (ss_cache s)) r
    end.

  (** The [dim_input] setter (sample.py:84-90). *)
  Definition set_dim (s : sstate) (d : Z) : result unit * sstate :=
    match ss_dim s with
    | Some _ => (Err EAssertionError, s)
    | None =>
        let s' := SState (ss_sample s) (ss_num s) (Some d) (ss_idx s) (ss_trainable s) (ss_grad s) (ss_cache s) in
        match ss_num s with
        | None => (Ok tt, s')
        | Some _ => init_sample s' NoSample full_request
        end
    end.

  (** The [num_sample] setter (sample.py:111-117). *)
  Definition set_num (s : sstate) (n : Z) : result unit * sstate :=
    match ss_num s with
    | Some _ => (Err EAssertionError, s)
    | None =>
        let s' := SState (ss_sample s) (Some n) (ss_dim s) (ss_idx s) (ss_trainable s) (ss_grad s) (ss_cache s) in
        match ss_dim s with
        | None => (Ok tt, s')
        | Some _ => init_sample s' NoSample full_request
        end
    end.

  (** The [sample_trainable] setter (sample.py:140-143). *)
  Definition set_trainable (s : sstate) (b : bool) : sstate :=
    SState (ss_sample s) (ss_num s) (ss_dim s) (ss_idx s) b (ss_grad s) (ss_cache s).

  (** A backward pass that deposits a gradient on the sample (autograd; not
      part of kerch). *)
  Definition deposit_grad (s : sstate) (g : tensor) : sstate :=
    SState (ss_sample s) (ss_num s) (ss_dim s) (ss_idx s) (ss_trainable s) (Some g) (ss_cache s).

  (** [update_sample] (sample.py:205-239).  [values] is the argument after
      [castf].  [self._sample.grad.data[idx, :].zero_()] (line 237) zeroes the
      copy made by the advanced indexing; with [grad] equal to [None] it raises
      [AttributeError], after the values have been written and before the cache
      is reset. *)
  Definition update_sample (s : sstate) (values : tensor) (idx : option (list Z))
    : result unit * sstate :=
    if empty_sample s then (Ok tt, s)
    else
      let idx' := match idx with
                  | Some l => l
                  | None => range (match ss_num s with Some n => n | None => 0 end)
                  end in
      if negb (Nat.eqb (List.length idx') (List.length (t_rows values))) then (Err EAssertionError, s)
      else
        match write_rows (ss_sample s) idx' values with
        | Err e => (Err e, s)
        | Ok t =>
            let s' := with_sample s t in
            match ss_trainable s, ss_grad s with
            | true, None => (Err EAttributeError, s')
            | _, _ => (Ok tt, with_cache s' (reset_cache (ss_cache s') false []))
            end
        end.

  (** The constructor (sample.py:55-70): [sample], or the dimensions. *)
  Definition new_sample (level : lvl) (a : sample_arg) (num dim : option Z) (trainable : bool)
             (r : request) : result unit * sstate :=
    let s0 := SState (Tensor 0 []) num dim None trainable None (init_cache level) in
    match a with
    | NoSample => init_sample s0 NoSample r
    | ParamSample t _ _ | DataSample t =>
        init_sample (SState (Tensor 0 []) (Some (nrows t)) (Some (ncols t)) None trainable None (init_cache level)) a r
    end.

  (** ** Histories *)
  Inductive sop : Type :=
  | SInit (a : sample_arg) (r : request)
  | SSetDim (d : Z)
  | SSetNum (n : Z)
  | SUpdate (values : tensor) (idx : option (list Z))
  | SSelect (r : request)
  | STrainable (b : bool)
  | SGrad (g : tensor).

  Definition sstep (s : sstate) (o : sop) : result unit * sstate :=
    match o with
    | SInit a r => init_sample s a r
    | SSetDim d => set_dim s d
    | SSetNum n => set_num s n
    | SUpdate v i => update_sample s v i
    | SSelect r => select_idx s r
    | STrainable b => (Ok tt, set_trainable s b)
    | SGrad g => (Ok tt, deposit_grad s g)
    end.

  Definition srun (s : sstate) (os : list sop) : sstate := fold_left (fun s o => snd (sstep s o)) os s.
End Sample.
Arguments tensor F : clear implicits.
Arguments sstate F V : clear implicits.
Arguments sample_arg F : clear implicits.
Arguments sop F : clear implicits.

(** ** Storage and aliasing (sample.py:178-201, cast.py:24-45) *)
Section Heap.
  Context {F : Type}.

  (** Tensors are views on storages; a storage is addressed by a number. *)
  Definition heap := list (list (list F)).

  (** What the caller passes: a float32 tensor or parameter (by reference), or
      anything else (numpy array, list, tensor of another type), which [castf]
      copies.  The address is that of the caller's own storage. *)
  Inductive passed : Type :=
  | PFloatTensor (addr : nat)
  | PParameter (addr : nat)
  | POther (addr : nat).

  Definition passed_addr (p : passed) : nat :=
    match p with PFloatTensor a | PParameter a | POther a => a end.

  Definition load (h : heap) (a : nat) : list (list F) := nth a h [].
  Definition store (h : heap) (a : nat) (v : list (list F)) : heap := set_nth h a v.
  Definition alloc (h : heap) (v : list (list F)) : nat * heap := (List.length h, (h ++ [v])%list).

  (** [castf] (cast.py:27-33): [x.type(FTYPE)] returns [x] itself when it
      already has that type, [torch.tensor(x)] always copies. *)
  Definition castf_addr (h : heap) (p : passed) : nat * heap :=
    match p with
    | PFloatTensor a | PParameter a => (a, h)
    | POther a => alloc h (load h a)
    end.

  (** The storage the module keeps: [torch.nn.Parameter(sample.data)]
      (sample.py:200) and [self._sample = sample] (196) share the storage. *)
  Definition module_storage (h : heap) (p : passed) : nat * heap := castf_addr h p.
End Heap.
