(** Changes of units: proofs. *)
From Verif Require Import Base Beautify RVec RVecProofs KernelR KernelRSpec Psd KernelRProofs Multiplier PsdKernelProofs Units UnitsSpec.
From Coq Require Import Permutation.
Open Scope R_scope.

Section Convert.
  Variables (c : R) (o : vec).
  Hypothesis Hc : 0 < c.

  Lemma square_dist_convert x y : length x = length o -> length y = length o ->
    square_dist (convert c o x) (convert c o y) = c * c * square_dist x y.
  Proof.
    unfold square_dist, convert. revert x y. induction o as [|b o' IH]; intros [|a x] [|a' y] Hx Hy; try discriminate; [cbn; ring|].
    injection Hx as Hx. injection Hy as Hy. cbn [zipw]. rewrite !sum_cons, IH by assumption. ring.
  Qed.
  Lemma differences_convert x y : length x = length o -> length y = length o ->
    zipw (fun u v => Rabs (u - v)) (convert c o x) (convert c o y) = map (Rmult c) (zipw (fun u v => Rabs (u - v)) x y).
  Proof.
    unfold convert. revert x y. induction o as [|b o' IH]; intros [|a x] [|a' y] Hx Hy; try discriminate; [reflexivity|].
    injection Hx as Hx. injection Hy as Hy. cbn [zipw map]. rewrite IH by assumption. f_equal.
    replace (c * a + b - (c * a' + b)) with (c * (a - a')) by ring. rewrite Rabs_mult, (Rabs_right c); lra.
  Qed.
  Lemma sum_scaled l : sum (map (Rmult c) l) = c * sum l.
  Proof. induction l as [|a l IH]; [cbn; ring|]. cbn [map]. rewrite !sum_cons, IH. ring. Qed.
  Lemma lmax_scaled l : lmax (map (Rmult c) l) = c * lmax l.
  Proof.
    destruct l as [|a l]; [cbn; ring|]. cbn [map lmax]. induction l as [|b l IH]; [reflexivity|].
    cbn [map fold_right]. rewrite IH. apply RmaxRmult. lra.
  Qed.

  Definition raw (d : distance) (x y : vec) : R :=
    match d with
    | Euclidean => sqrt (square_dist x y)
    | Manhattan => sum (zipw (fun a b => Rabs (a - b)) x y)
    | _ => lmax (zipw (fun a b => Rabs (a - b)) x y)
    end.
  Lemma raw_convert d x y : length x = length o -> length y = length o -> raw d (convert c o x) (convert c o y) = c * raw d x y.
  Proof.
    intros Hx Hy. destruct d; cbn [raw].
    - rewrite square_dist_convert by assumption. rewrite sqrt_mult_alt by (apply Rle_0_sqr). rewrite sqrt_square; lra.
    - rewrite differences_convert by assumption. apply lmax_scaled.
    - rewrite differences_convert by assumption. apply sum_scaled.
    - rewrite differences_convert by assumption. apply lmax_scaled.
  Qed.

  Lemma over_scaled sigma r : over (c * sigma) (c * r) = over sigma r.
  Proof.
    unfold over. destruct (Req_EM_T sigma 0) as [->|N].
    - rewrite Rmult_0_r. destruct (Req_EM_T 0 0) as [_|F]; [|contradiction].
      destruct (Req_EM_T r 0) as [->|M].
      + rewrite Rmult_0_r. destruct (Req_EM_T 0 0) as [_|F]; [reflexivity|contradiction].
      + destruct (Req_EM_T (c * r) 0) as [E|_]; [|reflexivity]. apply Rmult_integral in E. lra.
    - destruct (Req_EM_T (c * sigma) 0) as [E|_]; [apply Rmult_integral in E; lra|]. f_equal. field. lra.
  Qed.

  Lemma square_dist_sigma_convert d sigma x y : length x = length o -> length y = length o ->
    square_dist_sigma d (c * sigma) (convert c o x) (convert c o y) = square_dist_sigma d sigma x y.
  Proof.
    intros Hx Hy. destruct d; cbn [square_dist_sigma dist bind].
    - rewrite square_dist_convert by assumption. destruct (Req_EM_T sigma 0) as [->|N].
      + rewrite Rmult_0_r. destruct (Req_EM_T 0 0) as [_|F]; [|contradiction]. f_equal. unfold over.
        destruct (Req_EM_T 0 0) as [_|F]; [|contradiction].
        destruct (Req_EM_T (square_dist x y) 0) as [E|M].
        * rewrite E, Rmult_0_r. destruct (Req_EM_T 0 0) as [_|F]; [reflexivity|contradiction].
        * destruct (Req_EM_T (c * c * square_dist x y) 0) as [E|_]; [|reflexivity].
          apply Rmult_integral in E. destruct E as [E|E]; [apply Rmult_integral in E|]; lra.
      + destruct (Req_EM_T (c * sigma) 0) as [E|_]; [apply Rmult_integral in E; lra|]. do 2 f_equal. field. lra.
    - rewrite differences_convert, lmax_scaled, over_scaled by assumption. reflexivity.
    - rewrite differences_convert, sum_scaled, over_scaled by assumption. reflexivity.
    - reflexivity.
  Qed.
  Lemma dist_sigma_convert d sigma x y : length x = length o -> length y = length o ->
    dist_sigma d (c * sigma) (convert c o x) (convert c o y) = dist_sigma d sigma x y.
  Proof.
    intros Hx Hy. destruct d.
    - unfold dist_sigma. now rewrite square_dist_sigma_convert.
    - cbn [dist_sigma dist bind]. rewrite differences_convert, lmax_scaled, over_scaled by assumption. reflexivity.
    - cbn [dist_sigma dist bind]. rewrite differences_convert, sum_scaled, over_scaled by assumption. reflexivity.
    - reflexivity.
  Qed.
  Theorem kvalue_convert k d sigma x y : length x = length o -> length y = length o ->
    kvalue k d (c * sigma) (convert c o x) (convert c o y) = kvalue k d sigma x y.
  Proof.
    intros Hx Hy. unfold kvalue. rewrite dist_sigma_convert, square_dist_sigma_convert by assumption. reflexivity.
  Qed.

  Lemma pairs_convert (f g : vec -> vec -> R) (e : R) s : Forall (fun x => length x = length o) s ->
    (forall x y, length x = length o -> length y = length o -> f (convert c o x) (convert c o y) = e * g x y) ->
    pairs f (map (convert c o) s) = map (Rmult e) (pairs g s).
  Proof.
    intros Hs H. unfold pairs. rewrite flat_map_concat_map, flat_map_concat_map, concat_map, !map_map. f_equal.
    apply map_ext_in. intros x Hx. rewrite !map_map. apply map_ext_in. intros y Hy.
    rewrite Forall_forall in Hs. apply H; now apply Hs.
  Qed.
End Convert.

Lemma insert_scaled e a l : 0 < e -> insert (e * a) (map (Rmult e) l) = map (Rmult e) (insert a l).
Proof.
  intros He. induction l as [|b l IH]; [reflexivity|]. cbn [map insert].
  destruct (Rle_dec a b) as [L|L]; destruct (Rle_dec (e * a) (e * b)) as [M|M].
  - reflexivity.
  - exfalso. apply M. apply Rmult_le_compat_l; lra.
  - exfalso. apply L. apply (Rmult_le_reg_l e); lra.
  - cbn [map]. now rewrite IH.
Qed.
Lemma sort_scaled e l : 0 < e -> sort (map (Rmult e) l) = map (Rmult e) (sort l).
Proof. intros He. induction l as [|a l IH]; [reflexivity|]. cbn [map sort]. rewrite IH. now apply insert_scaled. Qed.
Lemma median_scaled e l : 0 < e -> median (map (Rmult e) l) = e * median l.
Proof.
  intros He. unfold median. rewrite map_length, sort_scaled by exact He.
  rewrite <- (Rmult_0_r e) at 1. apply (map_nth (Rmult e)).
Qed.

Theorem heuristic_convert c o d s : 0 < c -> Forall (fun x => length x = length o) s ->
  heuristic d (map (convert c o) s) = bind (heuristic d s) (fun sigma => Ok (c * sigma)).
Proof.
  intros Hc Hs. destruct d; cbn [heuristic bind]; [| | |reflexivity]; f_equal.
  - rewrite (pairs_convert c o square_dist square_dist (c * c) s Hs) by (intros; now apply square_dist_convert).
    rewrite median_scaled by nra. rewrite sqrt_mult_alt by nra. rewrite sqrt_square by lra. ring.
  - rewrite (pairs_convert c o _ (fun a b => lmax (zipw (fun u v => Rabs (u - v)) a b)) c s Hs).
    + rewrite median_scaled by exact Hc. ring.
    + intros x y Hx Hy. exact (raw_convert c o Hc Chebyshev x y Hx Hy).
  - rewrite (pairs_convert c o _ (fun a b => sum (zipw (fun u v => Rabs (u - v)) a b)) c s Hs).
    + rewrite median_scaled by exact Hc. ring.
    + intros x y Hx Hy. exact (raw_convert c o Hc Manhattan x y Hx Hy).
Qed.

Theorem default_convert c o k d s x y : 0 < c -> Forall (fun z => length z = length o) (x :: y :: s) ->
  default_kernel k d (map (convert c o) s) (convert c o x) (convert c o y) = default_kernel k d s x y.
Proof.
  intros Hc H. pose proof (Forall_inv H) as Hx. pose proof (Forall_inv (Forall_inv_tail H)) as Hy.
  pose proof (Forall_inv_tail (Forall_inv_tail H)) as Hs. unfold default_kernel. rewrite heuristic_convert by assumption.
  destruct (heuristic d s) as [sigma|e]; cbn [bind]; [|reflexivity]. now apply kvalue_convert.
Qed.

(** ** The order of the sample *)

Lemma ascending_unique l l' : ascending l -> ascending l' -> Permutation l l' -> l = l'.
Proof.
  revert l'. induction l as [|a l IH]; intros l' Hl Hl' P.
  - now apply Permutation_nil in P.
  - destruct l' as [|b l']; [now apply Permutation_sym, Permutation_nil in P|].
    destruct Hl as [Ha Hl]. destruct Hl' as [Hb Hl'].
    assert (E : a = b).
    { rewrite Forall_forall in Ha, Hb.
      assert (I1 : In a (b :: l')) by (apply (Permutation_in _ P); now left).
      assert (I2 : In b (a :: l)) by (apply (Permutation_in _ (Permutation_sym P)); now left).
      destruct I1 as [E|I1]; [now symmetry|]. destruct I2 as [E|I2]; [exact E|].
      specialize (Ha _ I2). specialize (Hb _ I1). lra. }
    subst b. f_equal. apply IH; [exact Hl|exact Hl'|]. now apply Permutation_cons_inv in P.
Qed.
Lemma median_perm l l' : Permutation l l' -> median l = median l'.
Proof.
  intros P. unfold median. rewrite (Permutation_length P). f_equal.
  apply ascending_unique; [apply sort_ascending|apply sort_ascending|].
  rewrite <- (sort_perm l), <- (sort_perm l'). exact P.
Qed.
Lemma flat_map_pointwise {A B} (g h : A -> list B) l : (forall a, Permutation (g a) (h a)) ->
  Permutation (flat_map g l) (flat_map h l).
Proof. intros H. induction l as [|a l IH]; [constructor|]. cbn [flat_map]. now apply Permutation_app. Qed.
Lemma pairs_perm (f : vec -> vec -> R) s s' : Permutation s s' -> Permutation (pairs f s) (pairs f s').
Proof.
  intros P. unfold pairs. rewrite (Permutation_flat_map (fun a => map (f a) s) P).
  apply flat_map_pointwise. intros a. now apply Permutation_map.
Qed.
Theorem heuristic_perm d s s' : Permutation s s' -> heuristic d s = heuristic d s'.
Proof.
  intros P. destruct d; cbn [heuristic]; [| | |reflexivity].
  all: erewrite median_perm; [reflexivity|apply pairs_perm, P].
Qed.
