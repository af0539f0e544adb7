(** Vocabulary for the pre-image methods. *)
From Verif Require Import Base RVec.
Open Scope R_scope.

(** [idx] are [k] distinct positions with the largest values of a row; all the choices
    among equal values are allowed. *)
Definition largest (row : vec) (k : nat) (idx : list nat) : Prop :=
  NoDup idx /\ length idx = k /\ Forall (fun i => (i < length row)%nat) idx /\
  forall a b, In a idx -> (b < length row)%nat -> ~ In b idx -> nth b row 0 <= nth a row 0.
Definition selects_largest (topk : vec -> nat -> list nat) : Prop :=
  forall row k, (k <= length row)%nat -> largest row k (topk row k).

(** [idx] are [k] distinct nearest positions: no other distance is smaller. *)
Definition nearest (row : vec) (k : nat) (idx : list nat) : Prop :=
  NoDup idx /\ length idx = k /\ Forall (fun i => (i < length row)%nat) idx /\
  forall a b, In a idx -> (b < length row)%nat -> ~ In b idx -> nth a row 0 <= nth b row 0.

(** Mean of the observations at given positions, in one dimension. *)
Definition mean_at (observations : mat) (idx : list nat) (j : nat) : R :=
  mean (map (fun i => nth j (nth i observations []) 0) idx).

(** Weights of a convex combination of [n] observations. *)
Definition convex (n : nat) (w : vec) : Prop := length w = n /\ Forall (fun v => 0 <= v) w /\ sum w = 1.
