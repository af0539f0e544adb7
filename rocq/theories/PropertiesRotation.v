(** Property theorem C170: kernels do not depend on the choice of the coordinates. *)
From Coq Require Import Permutation.
From Verif Require Import Base Beautify RVec RVecProofs KernelR Units Poly TimeR RotationSpec RotationProofs RotationExamples.
Open Scope R_scope.

(** Kernels of the Euclidean distance, with a given and with the default bandwidth. *)
Theorem C170_euclidean :
  forall (n : nat) (q : mat), orthonormal n q -> forall (k : kern) (sigma : R) (x y : vec),
    length x = n -> length y = n ->
    kvalue k Euclidean sigma (rotate q x) (rotate q y) = kvalue k Euclidean sigma x y.
Proof. exact rotation_kvalue. Qed.
Print Assumptions C170_euclidean.

Theorem C170_euclidean_default :
  forall (n : nat) (q : mat), orthonormal n q -> forall (k : kern) (sample : mat) (x y : vec),
    Forall (fun z => length z = n) (x :: y :: sample) ->
    default_kernel k Euclidean (map (rotate q) sample) (rotate q x) (rotate q y) = default_kernel k Euclidean sample x y.
Proof. exact rotation_default. Qed.
Print Assumptions C170_euclidean_default.

(** Linear, polynomial and sigmoid kernels. *)
Theorem C170_inner :
  forall (n : nat) (q : mat), orthonormal n q -> forall (x y : vec), length x = n ->
    dot (rotate q x) (rotate q y) = dot x y /\
    (forall degree beta, poly degree beta (rotate q x) (rotate q y) = poly degree beta x y) /\
    (forall a b, sigmoid_kernel a b (rotate q x) (rotate q y) = sigmoid_kernel a b x y).
Proof. exact rotation_inner. Qed.
Print Assumptions C170_inner.

(** The order and the direction of the coordinates, for every distance. *)
Theorem C170_order :
  forall (n : nat) (p : list nat) (sign : nat -> R), reordering n p sign ->
    forall (k : kern) (d : distance) (sigma : R) (x y : vec), length x = n -> length y = n ->
    kvalue k d sigma (relabel p sign x) (relabel p sign y) = kvalue k d sigma x y.
Proof. exact relabel_kvalue. Qed.
Print Assumptions C170_order.

Theorem C170_order_default :
  forall (n : nat) (p : list nat) (sign : nat -> R), reordering n p sign ->
    forall (k : kern) (d : distance) (sample : mat) (x y : vec), Forall (fun z => length z = n) (x :: y :: sample) ->
    default_kernel k d (map (relabel p sign) sample) (relabel p sign x) (relabel p sign y) = default_kernel k d sample x y.
Proof. exact relabel_default. Qed.
Print Assumptions C170_order_default.

Theorem C170_order_inner :
  forall (n : nat) (p : list nat) (sign : nat -> R), reordering n p sign ->
    forall (x y : vec), length x = n -> length y = n ->
    dot (relabel p sign x) (relabel p sign y) = dot x y /\
    (forall degree beta, poly degree beta (relabel p sign x) (relabel p sign y) = poly degree beta x y) /\
    (forall a b, sigmoid_kernel a b (relabel p sign x) (relabel p sign y) = sigmoid_kernel a b x y).
Proof. exact relabel_inner. Qed.
Print Assumptions C170_order_inner.

(** The other two distances are tied to the axes: a turn changes them. *)
Theorem C170_axes :
  exists (q : mat) (x y : vec), orthonormal 2 q /\ length x = 2%nat /\ length y = 2%nat /\
    kvalue Triangular Manhattan 2 (rotate q x) (rotate q y) <> kvalue Triangular Manhattan 2 x y /\
    kvalue Triangular Chebyshev 2 (rotate q x) (rotate q y) <> kvalue Triangular Chebyshev 2 x y.
Proof.
  exists turn, [1; 0], [0; 0]. split; [exact turn_orthonormal|]. split; [reflexivity|]. split; [reflexivity|].
  destruct turned_manhattan as [-> ->], turned_chebyshev as [-> ->].
  split; intros E; injection E as E; lra.
Qed.
Print Assumptions C170_axes.

Example C170_nontrivial :
  orthonormal 2 turn /\ rotate turn [5; 10] = [11; 2] /\
  reordering 2 [1; 0]%nat (fun j => match j with O => -1 | _ => 1 end) /\
  relabel [1; 0]%nat (fun j => match j with O => -1 | _ => 1 end) [5; 10] = [10; -5].
Proof.
  split; [exact turn_orthonormal|]. split.
  - unfold rotate, turn. cbn [map]. rewrite !dot_cons, !dot_nil_l. repeat (apply f_equal2; [lra|]); reflexivity.
  - split; [exact swap_reordering|]. unfold relabel. cbn [map nth]. repeat (apply f_equal2; [lra|]); reflexivity.
Qed.
