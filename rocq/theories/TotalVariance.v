(** Reading the variances of a model ([kerch/level/_KPCA.py:46-109]).  Definitions only. *)
From Verif Require Import Base RVec.
Open Scope R_scope.

Inductive repr : Type := Primal | Dual.

(** Tensors are cells of a storage; the two total variances may be cached.  The arrays
    returned by [numpy()] (line 73) share the storage of the tensor. *)
Record tv : Type := Tv { cells : list R; cached_primal : option nat; cached_dual : option nat }.
Definition cached (s : tv) (r : repr) : option nat := match r with Primal => cached_primal s | Dual => cached_dual s end.
Definition set_cached (s : tv) (r : repr) (a : option nat) : tv :=
  match r with
  | Primal => Tv (cells s) a (cached_dual s)
  | Dual => Tv (cells s) (cached_primal s) a
  end.
Definition value (s : tv) (a : nat) : R := nth a (cells s) 0.
Fixpoint update (l : list R) (a : nat) (f : R -> R) : list R :=
  match l, a with
  | [], _ => []
  | x :: l', O => f x :: l'
  | x :: l', S a' => x :: update l' a' f
  end.

Section Read.
  (** The representation of the level, its cache level, the two traces ([torch.trace] of
      the second moment and of the kernel matrix) and the number of selected points.
      They do not change here: a new sample empties the cache. *)
  Variables (default : repr) (level : nat) (trace : repr -> R) (num : nat).

  Definition repr_eqb (a b : repr) : bool := match a, b with Primal, Primal | Dual, Dual => true | _, _ => false end.
  (** The levels of [utils/defaults.py]: normal for the default representation, total for
      the other one. *)
  Definition needed (r : repr) : nat := if repr_eqb r default then 2%nat else 4%nat.

  (** [total_variance] (lines 62-73): [var /= self.num_idx] divides the tensor in place,
      cached or not. *)
  Definition fetch (s : tv) (r : repr) : nat * tv :=
    match cached s r with
    | Some a => (a, s)
    | None =>
        let a := length (cells s) in
        let s' := Tv (cells s ++ [trace r])%list (cached_primal s) (cached_dual s) in
        (a, if Nat.leb (needed r) level then set_cached s' r (Some a) else s')
    end.
  Definition total_variance (s : tv) (r : repr) (normalize : bool) : nat * tv :=
    let '(a, s') := fetch s r in
    (a, if normalize then Tv (update (cells s') a (fun v => v / INR num)) (cached_primal s') (cached_dual s') else s').

  (** [_reset_dual] (94-96) and the resets of the cache. *)
  Definition reset (s : tv) : tv := Tv (cells s) None None.

  (** [relative_variance] (98-109) in the default representation. *)
  Definition relative_variance (vals : list R) (s : tv) : R * tv :=
    let '(a, s') := total_variance s default false in (sum vals / value s' a, s').

  Inductive tvop : Type := TRead (r : repr) (normalize : bool) | TReset.
  Definition tvstep (s : tv) (o : tvop) : tv :=
    match o with
    | TRead r b => snd (total_variance s r b)
    | TReset => reset s
    end.
  Definition tvrun (s : tv) (os : list tvop) : tv := fold_left tvstep os s.
  Definition tv0 : tv := Tv [] None None.
End Read.
