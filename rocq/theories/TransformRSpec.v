(** Vocabulary for the numerical properties of transforms. *)
From Verif Require Import Base Cache Beautify TransformTree TransformSpec RVec TransformR.
Open Scope R_scope.

(** Transforms that can be undone. *)
Definition invertible (c : cls) : Prop := c <> Sphere.
(** Transforms with an implicit version. *)
Definition kernelised (c : cls) : Prop := c = MeanCenter \/ c = Sphere.
(** Enough points for the transforms of a chain. *)
Definition enough_points (p : path) (n : nat) : Prop :=
  (1 <= n)%nat /\ (In UnitVar p -> (2 <= n)%nat).

(** The state of a tree after a history. *)
Definition reached {V D : Type} (num : numerics V D) (explicit : bool) (s : tstate V D) : Prop :=
  exists req level heap s0 os,
    documented_level (Some level) /\ init_tree req level heap = Ok s0 /\
    tadmissible_history num explicit s0 os /\ s = snd (trun num explicit s0 os).

(** Norms that implicit and explicit normalisation treat alike: at each sphere of
    the chain the norms of the sample and of the data [z] are at least [sqrt EPS]. *)
Section Away.
  Context {D : Type}.
  Variable num : numerics val D.
  Fixpoint away (p : path) (z : option D) : Prop :=
    match p with
    | [] => True
    | c :: p' =>
        away p' z /\
        (c = Sphere -> forall m r, value_of num true p' z None = Ok (VMat m) -> In r m -> sqrt EPS <= norm r)
    end.
End Away.

(** Quadratic form of a matrix. *)
Definition quad (k : mat) (c : vec) : R := dot c (map (dot c) k).
Definition symmetric (k : mat) : Prop := transpose k = k.
Definition square (n : nat) (k : mat) : Prop := rect n k /\ length k = n.

(** [q] is the projection of [r] on the unit sphere: same direction, norm one (less
    for points within the threshold). *)
Definition on_sphere (r q : vec) : Prop :=
  norm q <= 1 /\ (EPS <= norm r -> norm q = 1) /\ r = map (fun v => Rmax (norm r) EPS * v) q.

(** The data an argument of a kernel evaluation stands for. *)
Definition object {D : Type} (sample : D) (s : tstate val D) (x : option nat) : D :=
  match x with None => sample | Some i => t_heap s i end.
