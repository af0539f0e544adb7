(** Kernels of a distance and the unit of measure of the data. *)
From Verif Require Import Base Beautify RVec RVecProofs KernelR KernelRSpec KernelRProofs Units UnitsSpec UnitsProofs.
From Coq Require Import Permutation.
Open Scope R_scope.

(** * C159 *)

(** With the default bandwidth, measuring the data in another unit and from another origin
    changes no value of a kernel, whether it is a number, infinite, not a number or an error. *)
Theorem C159_default_bandwidth :
  forall (c : R) (offsets : vec) (k : kern) (d : distance) (sample : mat) (x y : vec),
  0 < c -> Forall (fun z => length z = length offsets) (x :: y :: sample) ->
  default_kernel k d (map (convert c offsets) sample) (convert c offsets x) (convert c offsets y) =
  default_kernel k d sample x y.
Proof. exact default_convert. Qed.
Print Assumptions C159_default_bandwidth.

(** The default bandwidth itself is expressed in the unit of the data. *)
Theorem C159_bandwidth_unit :
  forall (c : R) (offsets : vec) (d : distance) (sample : mat),
  0 < c -> Forall (fun z => length z = length offsets) sample ->
  heuristic d (map (convert c offsets) sample) = bind (heuristic d sample) (fun sigma => Ok (c * sigma)).
Proof. exact heuristic_convert. Qed.
Print Assumptions C159_bandwidth_unit.

(** A bandwidth that was given has to be converted like the data. *)
Theorem C159_given_bandwidth :
  forall (c : R) (offsets : vec) (k : kern) (d : distance) (sigma : R) (x y : vec),
  0 < c -> length x = length offsets -> length y = length offsets ->
  kvalue k d (c * sigma) (convert c offsets x) (convert c offsets y) = kvalue k d sigma x y.
Proof. intros c o k d sigma x y Hc. exact (kvalue_convert c o Hc k d sigma x y). Qed.
Print Assumptions C159_given_bandwidth.

(** The order of the sample does not matter for the default bandwidth either. *)
Theorem C159_sample_order :
  forall (k : kern) (d : distance) (sample sample' : mat) (x y : vec),
  Permutation sample sample' -> default_kernel k d sample x y = default_kernel k d sample' x y.
Proof. intros k d s s' x y P. unfold default_kernel. now rewrite (heuristic_perm d s s' P). Qed.
Print Assumptions C159_sample_order.

Example C159_nontrivial :
  convert 100 [5; -5] [1; 2] = [105; 195] /\
  heuristic Manhattan [[0]; [4]; [10]] = Ok 2 /\
  default_kernel Triangular Manhattan [[0]; [4]; [10]] [0] [1] = Ok (Fin (1 / 2)).
Proof.
  assert (H : heuristic Manhattan [[0]; [4]; [10]] = Ok 2).
  { cbn [heuristic]. f_equal.
    replace (pairs _ _) with [0; 4; 10; 4; 0; 6; 10; 6; 0].
    - unfold median. replace ((_ - 1) / 2)%nat with 4%nat by reflexivity. cbn [sort insert].
      repeat match goal with |- context [Rle_dec ?a ?b] => destruct (Rle_dec a b) as [L|L]; [try (exfalso; lra)|try (exfalso; lra)]; clear L; cbn [insert] end.
      cbn [nth]. lra.
    - unfold pairs. cbn [flat_map map zipw sum fold_right app]. unfold Rabs.
      repeat (apply f_equal2; [destruct (Rcase_abs _); lra|]); reflexivity. }
  split; [|split; [exact H|]].
  - unfold convert. cbn [zipw]. repeat (apply f_equal2; [lra|]); reflexivity.
  - unfold default_kernel. rewrite H. cbn [bind kvalue dist_sigma dist zipw sum fold_right]. unfold over, kvalue.
    cbn [bind dist_sigma dist zipw sum fold_right]. unfold over.
    destruct (Req_EM_T 2 0) as [E|_]; [lra|]. cbn [bind profile window].
    replace (1 / 2 * (Rabs (0 - 1) + 0)) with (1 / 2) by (unfold Rabs; destruct (Rcase_abs _); lra).
    destruct (Rle_dec (1 / 2) 1); [|lra]. do 2 f_equal. lra.
Qed.
