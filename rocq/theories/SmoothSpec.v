(** Vocabulary for smoothing with every point. *)
From Verif Require Import Base RVec.
Open Scope R_scope.

(** The total similarity of the point number [i] to all points. *)
Definition total (k : vec -> vec -> R) (domain : mat) (i : nat) : R := sum (map (k (nth i domain [])) domain).
(** The [j]-th coordinate of the observation number [i]. *)
Definition entry (m : mat) (i j : nat) : R := nth j (nth i m []) 0.
(** The sum over all points, weighted by their total similarity. *)
Definition weighted (k : vec -> vec -> R) (domain : mat) (f : nat -> R) : R :=
  sum (map (fun i => total k domain i * f i) (seq 0 (length domain))).
(** The spread of a coordinate around [c]. *)
Definition spread (k : vec -> vec -> R) (domain m : mat) (j : nat) (c : R) : R :=
  weighted k domain (fun i => (entry m i j - c) ^ 2).
(** A similarity on the points of a domain. *)
Definition similar_on (k : vec -> vec -> R) (domain : mat) : Prop :=
  forall x y, In x domain -> In y domain -> k x y = k y x /\ 0 <= k x y /\ 0 < k x x.
