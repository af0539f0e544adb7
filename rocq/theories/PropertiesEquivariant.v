(** Pre-images and kernel smoothing in other coordinates and in another order (C196). *)
From Coq Require Import Permutation.
From Verif Require Import Base RVec RVecProofs Method MethodSpec MethodProofs KernelMethod EquivariantSpec EquivariantProofs EquivariantExamples.
Open Scope R_scope.

(** * C196 *)

(** The observations may be expressed in any other coordinates, by a linear change and a
    shift, possibly to another dimension: the answers, the points without answer and the
    errors are those of before, in the new coordinates. *)
Theorem C196_coordinates :
  forall topk, selects_largest topk -> forall A b d, rect d A -> List.length b = List.length A ->
  (forall cols dists observations num, rect d observations -> rect cols dists ->
     knn topk cols dists (map (affine A b) observations) num =
     answers (map (affine A b)) (knn topk cols dists observations num)) /\
  (forall cols coefficients observations num, rect d observations -> rect cols coefficients ->
     smoother topk cols coefficients (map (affine A b) observations) num =
     answers (map (option_map (affine A b))) (smoother topk cols coefficients observations num)) /\
  (forall k domain observations num, rect d observations ->
     kernel_smoother topk k domain (map (affine A b) observations) num =
     answers (map (option_map (affine A b))) (kernel_smoother topk k domain observations num)) /\
  (forall k domain observations num, rect d observations ->
     kernel_knn topk k domain (map (affine A b) observations) num =
     answers (map (affine A b)) (kernel_knn topk k domain observations num)).
Proof.
  intros topk Ht A b d RA Hb. split; [|split; [|split]].
  - exact (knn_affine topk Ht A b d RA Hb).
  - exact (smoother_affine topk A b d RA Hb).
  - intros k domain observations num. now apply kernel_smoother_affine.
  - intros k domain observations num. now apply kernel_knn_affine.
Qed.
Print Assumptions C196_coordinates.

(** The order of the observations, taken with their columns, does not matter to a smoother
    that keeps them all; for one that keeps some and for nearest neighbours, it does not
    matter when no two values of a row are equal, whichever choice is made among equals. *)
Theorem C196_observation_order :
  forall topk, selects_largest topk -> forall d cols observations p, rect d observations -> order_of (List.length observations) p ->
  (forall coefficients num, rect cols coefficients ->
     num = None \/ num = Some (Z.of_nat cols) \/ Forall (@NoDup R) coefficients ->
     smoother topk cols (map (in_order 0 p) coefficients) (in_order [] p observations) num =
     smoother topk cols coefficients observations num) /\
  (forall dists num, rect cols dists -> Forall (@NoDup R) dists ->
     knn topk cols (map (in_order 0 p) dists) (in_order [] p observations) num = knn topk cols dists observations num).
Proof.
  intros topk Ht d cols observations p Ro H. split.
  - intros coefficients num Rc C. now apply (smoother_order topk Ht d).
  - intros dists num Rd C. now apply (knn_order topk Ht d).
Qed.
Print Assumptions C196_observation_order.

(** Smoothing a function over its own domain: the smoothed values follow their points
    into another order, and a positive factor of the kernel does not matter. *)
Theorem C196_domain_order :
  forall topk, selects_largest topk -> forall k d domain observations p, rect d observations ->
  List.length domain = List.length observations -> order_of (List.length domain) p ->
  (forall num, num = None \/ num = Some (Z.of_nat (List.length domain)) \/ Forall (fun x => NoDup (map (k x) domain)) domain ->
     kernel_smoother topk k (in_order [] p domain) (in_order [] p observations) num =
     answers (in_order None p) (kernel_smoother topk k domain observations num)) /\
  (forall num, Forall (fun x => NoDup (map (k x) domain)) domain ->
     kernel_knn topk k (in_order [] p domain) (in_order [] p observations) num =
     answers (in_order [] p) (kernel_knn topk k domain observations num)).
Proof.
  intros topk Ht k d domain observations p Ro E H. split.
  - intros num C. now apply (kernel_smoother_order topk Ht k d).
  - intros num C. now apply (kernel_knn_order topk Ht k d).
Qed.
Print Assumptions C196_domain_order.

Theorem C196_scale :
  forall topk k c domain observations num, 0 < c -> num = None \/ num = Some (Z.of_nat (List.length domain)) ->
  kernel_smoother topk (fun x y => c * k x y) domain observations num = kernel_smoother topk k domain observations num.
Proof. intros topk k c domain observations num Hc C. now apply kernel_smoother_scale. Qed.
Print Assumptions C196_scale.

(** Refuted with equal distances: whichever choice is made among them, some order of the
    points gives other nearest neighbours. *)
Theorem C196_ties_refuted :
  forall topk, selects_largest topk -> exists dists observations p, rect 1 observations /\ rect 2 dists /\
  order_of 2 p /\ is_ok (knn topk 2 dists observations 1) = true /\
  knn topk 2 (map (in_order 0 p) dists) (in_order [] p observations) 1 <> knn topk 2 dists observations 1.
Proof. exact knn_tie. Qed.
Print Assumptions C196_ties_refuted.

Example C196_nontrivial :
  selects_largest first_largest /\ rect 1 twice /\ List.length moved = List.length twice /\ affine twice moved [4] = [7; 4] /\
  rect 1 heights /\ List.length places = List.length heights /\ order_of (List.length places) turned /\
  in_order [] turned heights = [[2]; [1]; [4]] /\ Forall (fun x => NoDup (map (tilt x) places)) places /\
  (exists v, kernel_smoother first_largest tilt places heights None = Ok [Some v; Some v; Some v]).
Proof.
  split; [exact first_largest_ok|]. split; [repeat constructor|]. split; [reflexivity|]. split; [exact twice_moves|].
  split; [repeat constructor|]. split; [reflexivity|]. split; [exact turned_order|]. split; [exact turned_heights|].
  split; [exact tilt_distinct|]. exact tilt_smooth.
Qed.
