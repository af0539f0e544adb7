(** Property theorems C37, C38, C39, C90: the polynomial kernel. *)
From Coq Require Import Factorial.
From Verif Require Import Base RVec RVecProofs KernelR KernelRSpec Psd Poly PolyProofs.
Open Scope R_scope.

(** * C37 *)

Theorem C37_features_realise_kernel :
  forall (d degree : nat) (beta : R) (x y : mat), (1 <= degree)%nat -> 0 <= beta -> rect d x -> rect d y ->
  exists px py, poly_explicit d degree beta x = Ok px /\ poly_explicit d degree beta y = Ok py /\
    gram px py = map (fun a => map (fun b => (dot a b + beta) ^ degree) y) x.
Proof. exact poly_explicit_gram. Qed.
Print Assumptions C37_features_realise_kernel.

(** Degree zero has no feature map. *)
Theorem C37_degree_zero_refuted :
  forall (d : nat) (beta : R) (x : mat), 0 <= beta -> poly_explicit d 0 beta x = Err ETypeError.
Proof. exact poly_degree_zero. Qed.
Print Assumptions C37_degree_zero_refuted.

Example C37_nontrivial : (1 <= 3)%nat /\ 0 <= 1 / 2 /\ rect 2 [[1; 2]; [3; -1]] /\
  map (fun a => map (fun b => (dot a b + 1 / 2) ^ 3) [[1; 0]]) [[1; 2]] = [[27 / 8]].
Proof.
  split; [lia|]. split; [lra|]. split; [repeat constructor|]. unfold dot. cbn [map zipw sum fold_right]. do 2 f_equal. field.
Qed.

(** * C38 *)

Theorem C38_announced_dimension :
  forall (d degree : nat) (beta : R) (x px : mat), poly_explicit d degree beta x = Ok px -> rect (dim_feature degree d) px.
Proof. exact dim_feature_right. Qed.
Print Assumptions C38_announced_dimension.
Theorem C38_value :
  forall d degree : nat, (dim_feature degree d * fact d * fact degree = fact (d + degree))%nat.
Proof. exact dim_feature_value. Qed.
Print Assumptions C38_value.

(** Each monomial appears exactly once. *)
Theorem C38_monomials :
  forall (d degree : nat) (p : list nat), NoDup (multichoose (S d) degree) /\
    (In p (multichoose (S d) degree) <-> length p = S d /\ list_sum p = degree).
Proof.
  intros d degree p. split; [exact (multichoose_NoDup d degree)|].
  split; [exact (multichoose_sum d degree p)|]. intros [L S]. exact (multichoose_complete d degree p L S).
Qed.
Print Assumptions C38_monomials.

Example C38_nontrivial : dim_feature 2 3 = 10%nat /\ multichoose 2 2 = [[0; 2]; [1; 1]; [2; 0]]%nat.
Proof. split; reflexivity. Qed.

(** * C39 *)

(** The second argument is ignored, and so is the sample when the first is given. *)
Theorem C39_second_argument_refuted :
  forall (d degree : nat) (beta : R) (sample : mat) (x y y' : option mat) (e : option bool),
    poly_k d degree beta sample x y e = poly_k d degree beta sample x y' e.
Proof. exact poly_k_first_only. Qed.
Print Assumptions C39_second_argument_refuted.
Theorem C39_first_argument_twice_partial :
  forall (d degree : nat) (beta : R) (sample : mat) (x y : option mat), (1 <= degree)%nat -> 0 <= beta -> rect d sample ->
  (forall m, x = Some m -> rect d m) -> forall e : option bool,
  poly_k d degree beta sample x y e =
    Ok (let m := match x with Some m => m | None => sample end in
        map (fun a => map (fun b => (dot a b + beta) ^ degree) m) m).
Proof. exact poly_k_value. Qed.
Print Assumptions C39_first_argument_twice_partial.

(** With a negative offset the kernel matrix of a large enough sample raises. *)
Theorem C39_negative_offset_refuted :
  forall (d degree : nat) (beta : R) (sample : mat), beta < 0 -> let n := length sample in
  (dim_feature degree d * (n + n) < n * n)%nat -> poly_k d degree beta sample None None None = Err EValueError.
Proof. exact poly_k_negative_offset. Qed.
Print Assumptions C39_negative_offset_refuted.

Example C39_nontrivial : let sample := [[1]; [2]; [3]; [4]; [5]; [6]; [7]] in
  rect 1 sample /\ (dim_feature 2 1 * (length sample + length sample) < length sample * length sample)%nat.
Proof. split; [repeat constructor|]. cbn. lia. Qed.

(** * C90 *)

Theorem C90_polynomial_psd :
  forall (d degree : nat) (beta : R), 0 <= beta ->
    psd_on (fun x => length x = d) (fun x y => (dot x y + beta) ^ degree).
Proof. exact poly_psd. Qed.
Print Assumptions C90_polynomial_psd.

Example C90_nontrivial : 0 <= 1 /\ Forall (fun x : vec => length x = 2%nat) [[1; 2]; [0; 1]; [3; 3]].
Proof. split; [lra|repeat constructor]. Qed.
