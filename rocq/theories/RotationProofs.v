(** Other coordinates for the same points: proofs. *)
From Coq Require Import Permutation.
From Verif Require Import Base Beautify RVec RVecProofs KernelR KernelRSpec KernelRProofs Units Poly TimeR RotationSpec
  TransformRTree.
Open Scope R_scope.

(** ** Orthonormal coordinates *)

Lemma lincomb_nth d c q k : rect d q -> (k < d)%nat -> length c = length q ->
  nth k (lincomb d c q) 0 = dot c (column k q).
Proof.
  intros Hq Hk. revert c. induction Hq as [|r q Hr Hq IH]; intros [|a c] Hc; try discriminate Hc; cbn [lincomb].
  - rewrite dot_nil_l.
    change (nth k (map (fun _ : nat => 0) (seq 0 d)) ((fun _ : nat => 0) O) = 0). now rewrite map_nth.
  - rewrite (zipw_nth Rplus _ _ k 0 0 0).
    + rewrite IH by (now injection Hc). unfold column. cbn [map]. rewrite dot_cons.
      replace 0 with (a * 0) at 1 by ring. rewrite (map_nth (fun v => a * v)). reflexivity.
    + rewrite map_length, Hr. exact Hk.
    + rewrite (lincomb_length d c q Hq). exact Hk.
Qed.

Lemma sum_delta d k (f : nat -> R) : (k < d)%nat ->
  sum (map (fun j => (if Nat.eq_dec k j then 1 else 0) * f j) (seq 0 d)) = f k.
Proof.
  intros Hk. assert (H : forall l, NoDup l -> sum (map (fun j => (if Nat.eq_dec k j then 1 else 0) * f j) l) =
    if in_dec Nat.eq_dec k l then f k else 0).
  { induction l as [|i l IH]; intros N; [reflexivity|]. apply NoDup_cons_iff in N. destruct N as [N0 N1].
    cbn [map]. rewrite sum_cons, IH by exact N1. destruct (Nat.eq_dec k i) as [->|Ne].
    - destruct (in_dec Nat.eq_dec i l) as [I|_]; [contradiction|].
      destruct (in_dec Nat.eq_dec i (i :: l)) as [_|F]; [ring|]. exfalso. apply F. now left.
    - destruct (in_dec Nat.eq_dec k l) as [I|I], (in_dec Nat.eq_dec k (i :: l)) as [J|J]; try ring.
      + exfalso. apply J. now right.
      + exfalso. destruct J as [E|J]; [now apply Ne|contradiction]. }
  rewrite H by apply seq_NoDup. destruct (in_dec Nat.eq_dec k (seq 0 d)) as [_|F]; [reflexivity|].
  exfalso. apply F, in_seq. lia.
Qed.

Lemma rotate_length q x : length (rotate q x) = length q.
Proof. apply map_length. Qed.

(** Rotating back. *)
Lemma rotate_back d q x : orthonormal d q -> length x = d -> lincomb d (rotate q x) q = x.
Proof.
  intros [Hq Ho] Hx. apply (vec_ext d); [now apply lincomb_length|exact Hx|]. intros k Hk.
  rewrite (lincomb_nth d) by (try assumption; apply rotate_length).
  unfold rotate. rewrite dot_comm, <- (dot_lincomb d) by exact Hq.
  rewrite (dot_as_sum d) by (try exact Hx; now apply lincomb_length).
  transitivity (sum (map (fun j => (if Nat.eq_dec k j then 1 else 0) * nth j x 0) (seq 0 d))); [|now apply (sum_delta d k (fun j => nth j x 0))].
  apply sum_map_ext. intros j Hj. apply in_seq in Hj. f_equal.
  rewrite (lincomb_nth d); [|exact Hq|lia|unfold column; now rewrite map_length].
  rewrite Ho by lia. reflexivity.
Qed.

Lemma dot_rotate d q x y : orthonormal d q -> length x = d -> dot (rotate q x) (rotate q y) = dot x y.
Proof.
  intros Hq Hx. unfold rotate at 2. rewrite <- (dot_lincomb d) by exact (proj1 Hq).
  now rewrite (rotate_back d q x Hq Hx).
Qed.
Lemma square_dist_rotate d q x y : orthonormal d q -> length x = d -> length y = d ->
  square_dist (rotate q x) (rotate q y) = square_dist x y.
Proof.
  intros Hq Hx Hy. rewrite !square_dist_expand by (rewrite ?rotate_length; congruence).
  now rewrite !(dot_rotate d) by assumption.
Qed.

(** ** Order and direction of the coordinates *)

Lemma zipw_seq (f : R -> R -> R) d x y : length x = d -> length y = d ->
  zipw f x y = map (fun j => f (nth j x 0) (nth j y 0)) (seq 0 d).
Proof.
  revert x y. induction d as [|d IH]; intros [|a x] [|b y] Hx Hy; try discriminate Hx; try discriminate Hy; [reflexivity|].
  cbn [zipw seq map nth]. f_equal. rewrite <- seq_shift, map_map. cbn [nth]. apply IH; [now injection Hx|now injection Hy].
Qed.
Lemma zipw_relabel (f : R -> R -> R) d p sign x y : reordering d p sign -> length x = d -> length y = d ->
  (forall a b, f (- a) (- b) = f a b) -> Permutation (zipw f (relabel p sign x) (relabel p sign y)) (zipw f x y).
Proof.
  intros [Hp Hs] Hx Hy Hf.
  assert (E : zipw f (relabel p sign x) (relabel p sign y) = map (fun j => f (nth j x 0) (nth j y 0)) p).
  { unfold relabel. rewrite zipw_map_l, zipw_map_r, zipw_same. apply map_ext_in. intros j Hj.
    apply (Permutation_in _ Hp), in_seq in Hj. destruct (Hs j ltac:(lia)) as [-> | ->].
    - now rewrite !Rmult_1_l.
    - rewrite <- Hf. f_equal; ring. }
  rewrite E, (zipw_seq f d x y Hx Hy). now apply Permutation_map.
Qed.
Lemma sum_permutation l l' : Permutation l l' -> sum l = sum l'.
Proof. intros P. induction P; rewrite ?sum_cons in *; try lra; try reflexivity. Qed.
Lemma lmax_permutation l l' : Permutation l l' -> lmax l = lmax l'.
Proof.
  intros P. destruct l' as [|a l'].
  - apply Permutation_sym, Permutation_nil in P. now subst l.
  - apply lmax_unique.
    + apply (Permutation_in _ (Permutation_sym P)), lmax_In. discriminate.
    + intros x Hx. apply lmax_ge. now apply (Permutation_in _ P).
Qed.
Lemma relabel_length d p sign x : reordering d p sign -> length (relabel p sign x) = d.
Proof. intros [Hp _]. unfold relabel. now rewrite map_length, (Permutation_length Hp), seq_length. Qed.
Lemma dot_relabel d p sign x y : reordering d p sign -> length x = d -> length y = d ->
  dot (relabel p sign x) (relabel p sign y) = dot x y.
Proof.
  intros H Hx Hy. unfold dot. apply sum_permutation. apply (zipw_relabel Rmult d); try assumption. intros; ring.
Qed.
Lemma square_dist_relabel d p sign x y : reordering d p sign -> length x = d -> length y = d ->
  square_dist (relabel p sign x) (relabel p sign y) = square_dist x y.
Proof.
  intros H Hx Hy. apply sum_permutation.
  apply (zipw_relabel (fun a b => (a - b) * (a - b)) d); try assumption. intros; ring.
Qed.
Lemma absdiff_relabel d p sign x y : reordering d p sign -> length x = d -> length y = d ->
  Permutation (zipw (fun a b => Rabs (a - b)) (relabel p sign x) (relabel p sign y)) (zipw (fun a b => Rabs (a - b)) x y).
Proof.
  intros H Hx Hy. apply (zipw_relabel (fun a b => Rabs (a - b)) d); try assumption.
  intros a b. rewrite <- Rabs_Ropp. f_equal. ring.
Qed.

(** ** Kernels see the distances only *)

(** The numbers that a distance kernel takes from a pair of points. *)
Definition measured (d : distance) (x y : vec) : R :=
  match d with
  | Euclidean => square_dist x y
  | Manhattan => sum (zipw (fun a b => Rabs (a - b)) x y)
  | _ => lmax (zipw (fun a b => Rabs (a - b)) x y)
  end.
Lemma kvalue_measured k d sigma x y x' y' : measured d x y = measured d x' y' -> kvalue k d sigma x y = kvalue k d sigma x' y'.
Proof.
  intros E. unfold kvalue. destruct d; cbn [measured square_dist_sigma dist_sigma dist bind] in *; rewrite ?E; try reflexivity.
Qed.
Lemma pairs_map (f : vec -> vec -> R) (g : vec -> vec) s : (forall a b, In a s -> In b s -> f (g a) (g b) = f a b) ->
  pairs f (map g s) = pairs f s.
Proof.
  intros H. unfold pairs. rewrite flat_map_concat_map, map_map, <- flat_map_concat_map.
  rewrite !flat_map_concat_map. f_equal. apply map_ext_in. intros a Ha. rewrite map_map. apply map_ext_in.
  intros b Hb. now apply H.
Qed.
Lemma heuristic_measured d (g : vec -> vec) s : (forall a b, In a s -> In b s -> measured d (g a) (g b) = measured d a b) ->
  heuristic d (map g s) = heuristic d s.
Proof.
  intros H. destruct d; cbn [heuristic measured] in *; try reflexivity; do 2 f_equal; try f_equal.
  - now rewrite pairs_map.
  - now rewrite pairs_map.
  - now rewrite pairs_map.
Qed.
Lemma default_measured k d (g : vec -> vec) s x y :
  (forall a b, In a (x :: y :: s) -> In b (x :: y :: s) -> measured d (g a) (g b) = measured d a b) ->
  default_kernel k d (map g s) (g x) (g y) = default_kernel k d s x y.
Proof.
  intros H. unfold default_kernel. rewrite heuristic_measured by (intros a b Ha Hb; apply H; right; now right).
  destruct (heuristic d s) as [sigma|e]; [|reflexivity]. cbn [bind]. apply kvalue_measured, H; cbn; auto.
Qed.

Section Rotation.
  Variables (n : nat) (q : mat).
  Hypothesis Hq : orthonormal n q.

  Lemma rotation_kvalue k sigma x y : length x = n -> length y = n ->
    kvalue k Euclidean sigma (rotate q x) (rotate q y) = kvalue k Euclidean sigma x y.
  Proof. intros Hx Hy. apply kvalue_measured. now apply (square_dist_rotate n). Qed.
  Lemma rotation_default k s x y : Forall (fun z => length z = n) (x :: y :: s) ->
    default_kernel k Euclidean (map (rotate q) s) (rotate q x) (rotate q y) = default_kernel k Euclidean s x y.
  Proof.
    intros H. apply default_measured. intros a b Ha Hb.
    apply (square_dist_rotate n q a b Hq); now apply (proj1 (Forall_forall _ _) H).
  Qed.
  Lemma rotation_inner x y : length x = n ->
    dot (rotate q x) (rotate q y) = dot x y /\
    (forall degree beta, poly degree beta (rotate q x) (rotate q y) = poly degree beta x y) /\
    (forall a b, sigmoid_kernel a b (rotate q x) (rotate q y) = sigmoid_kernel a b x y).
  Proof. intros Hx. unfold poly, sigmoid_kernel. rewrite (dot_rotate n) by assumption. auto. Qed.
  Lemma rotation_norm x : length x = n -> norm (rotate q x) = norm x.
  Proof. intros Hx. unfold norm. now rewrite (dot_rotate n). Qed.
End Rotation.

Section Relabel.
  Variables (n : nat) (p : list nat) (sign : nat -> R).
  Hypothesis Hp : reordering n p sign.
  Lemma measured_relabel d x y : length x = n -> length y = n ->
    measured d (relabel p sign x) (relabel p sign y) = measured d x y.
  Proof.
    intros Hx Hy. destruct d; cbn [measured].
    - now apply (square_dist_relabel n).
    - now apply lmax_permutation, (absdiff_relabel n).
    - now apply sum_permutation, (absdiff_relabel n).
    - now apply lmax_permutation, (absdiff_relabel n).
  Qed.
  Lemma relabel_kvalue k d sigma x y : length x = n -> length y = n ->
    kvalue k d sigma (relabel p sign x) (relabel p sign y) = kvalue k d sigma x y.
  Proof. intros Hx Hy. apply kvalue_measured. now apply measured_relabel. Qed.
  Lemma relabel_default k d s x y : Forall (fun z => length z = n) (x :: y :: s) ->
    default_kernel k d (map (relabel p sign) s) (relabel p sign x) (relabel p sign y) = default_kernel k d s x y.
  Proof.
    intros H. apply default_measured. intros a b Ha Hb. apply measured_relabel; now apply (proj1 (Forall_forall _ _) H).
  Qed.
  Lemma relabel_inner x y : length x = n -> length y = n ->
    dot (relabel p sign x) (relabel p sign y) = dot x y /\
    (forall degree beta, poly degree beta (relabel p sign x) (relabel p sign y) = poly degree beta x y) /\
    (forall a b, sigmoid_kernel a b (relabel p sign x) (relabel p sign y) = sigmoid_kernel a b x y).
  Proof. intros Hx Hy. unfold poly, sigmoid_kernel. rewrite (dot_relabel n) by assumption. auto. Qed.
End Relabel.
