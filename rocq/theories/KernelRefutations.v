(** Executions of the sample and kernel models on which an expected property
    fails (C15, C16, C19, C20, C82, C83). *)
From Coq Require Import QArith.
From Verif Require Import Base BaseProofs Cache CacheSpec CacheProofs Tree ModuleTree Sample SampleSpec SampleProofs KernelState KernelSpec KernelProofs.
Open Scope string_scope.
Open Scope Z_scope.

(** A one-dimensional toy kernel over the integers: pairwise absolute differences
    minus the bandwidth; the heuristic is the sum of all distances. *)
Definition toy_dist (x y : list (list Z)) : list (list Z) :=
  map (fun a => map (fun b => Z.abs (hd 0 a - hd 0 b)) y) x.
Definition toy_heur (d : list (list Z)) : Z := fold_left Z.add (List.concat d) 0.
Definition toy_kern (s : Z) (d : list (list Z)) : result (list (list Z)) :=
  Ok (map (map (fun v => v - s)) d).
Definition toy_orth (n d : nat) : list (list Z) := repeat (repeat 0 d) n.
Definition toy_transform (x : list (list Z)) : list (list Z) := map (map (Z.mul 2)) x.
Definition toy_step (no_transform : bool) :=
  kstep toy_transform no_transform toy_dist toy_heur 1 toy_kern "_kernel_dist_sample" toy_orth.
Definition toy_run (no_transform : bool) :=
  krun toy_transform no_transform toy_dist toy_heur 1 toy_kern "_kernel_dist_sample" toy_orth.
Definition toy_true_K (no_transform : bool) :=
  true_K toy_transform no_transform toy_dist toy_heur toy_kern
    : kstate Z (list (list Z)) Z (list (list Z)) -> result (list (list Z)).
Definition column (l : list Z) : tensor Z := Tensor 1 (map (fun x => [x]) l).
Definition toy_kernel (level : string) (trainable : bool) (sigma : option Z) (l : list Z)
  : kstate Z (list (list Z)) Z (list (list Z)) :=
  snd (new_kernel toy_orth (LStr level) (DataSample (column l)) None None trainable full_request sigma).

(** C15: the update of a trainable sample without gradient raises after the
    write; the kernel matrix read next is that of the old sample. *)
Lemma failed_update_stale :
    let s := toy_kernel "normal" true (Some 0) [0; 1] in
    let os := [KReadK; KSample (SUpdate (column [0; 5]) None)] in
    map snd (fst (toy_run true s os)) =
      [OutK (Ok [[0; 1]; [1; 0]]); OutUnit (Err EAttributeError)] /\
    let s' := snd (toy_run true s os) in
    t_rows (ss_sample (k_obj s')) = [[0]; [5]] /\
    fst (toy_step true s' KReadK) = OutK (Ok [[0; 1]; [1; 0]]) /\
    toy_true_K true s' = Ok [[0; 5]; [5; 0]].
Proof. cbv zeta. repeat split; vm_compute; reflexivity. Qed.

(** C19: without cache and with a sample transform, the held distances are not
    used. *)
Lemma sigma_change_recomputes :
    let s1 := snd (toy_run false (toy_kernel "none" false None [0; 1]) [KReadSigma]) in
    dist_held "_kernel_dist_sample" s1 /\
    let s2 := snd (toy_step false s1 (KSetSigma (Some 3))) in
    dist_held "_kernel_dist_sample" s2 /\
    k_ndist (snd (toy_step false s2 KReadK)) = S (k_ndist s1).
Proof. cbv zeta. split; [|split; [|vm_compute; reflexivity]]; eexists; vm_compute; reflexivity. Qed.

(** C20: the bandwidth determined at the first read is kept when the sample is
    updated, replaced or sub-sampled. *)
Lemma frozen_after_update :
  map snd (fst (toy_run true (toy_kernel "normal" false None [0; 1])
    [KReadSigma; KSample (SUpdate (column [0; 5]) None); KReadSigma])) =
  [OutSigma (Ok 2); OutUnit (Ok tt); OutSigma (Ok 2)] /\
  map snd (fst (toy_run true (toy_kernel "normal" false None [0; 1])
    [KSample (SUpdate (column [0; 5]) None); KReadSigma])) =
  [OutUnit (Ok tt); OutSigma (Ok 10)].
Proof. vm_compute. split; reflexivity. Qed.

(** C83: assigning [None] raises but declares the placeholder to be the
    bandwidth. *)
Lemma sigma_none_placeholder :
  map snd (fst (toy_run true (toy_kernel "normal" false None [0; 5])
    [KSetSigma None; KReadSigma])) = [OutUnit (Err ETypeError); OutSigma (Ok 1)].
Proof. vm_compute. reflexivity. Qed.

(** C82: the gradient rows of updated points are not cleared. *)
Lemma gradient_kept :
  let s := deposit_grad (snd (new_sample (V := nat) toy_orth (LStr "normal") (DataSample (column [0; 1])) None None true full_request))
             (column [7; 8]) in
  update_sample s (column [5]) (Some [1]) <> (Err EAttributeError, s) /\
  fst (update_sample s (column [5]) (Some [1])) = Ok tt /\
  t_rows (ss_sample (snd (update_sample s (column [5]) (Some [1])))) = [[0]; [5]] /\
  ss_grad (snd (update_sample s (column [5]) (Some [1]))) = Some (column [7; 8]).
Proof. vm_compute. repeat split. discriminate. Qed.

(** C84: an initialisation with an invalid proportion raises but replaces the
    sample, keeping indices of the former one. *)
Lemma failed_init_stale_indices :
  map snd (fst (toy_run true (toy_kernel "normal" false (Some 0) [0; 1; 2])
    [KSample (SInit (DataSample (column [7])) (Request None (Some (2 # 1)) [])); KReadK])) =
  [OutUnit (Err EAssertionError); OutK (Err EIndexError)].
Proof. vm_compute. reflexivity. Qed.

(** C85: the number of points alone is not accepted, the dimension alone is. *)
Lemma number_alone_rejected :
  forall (F V : Type) (orth : nat -> nat -> list (list F)) level n tr r,
    fst (@new_sample F V orth level NoSample (Some n) None tr r) = Err ENotInitialized.
Proof. reflexivity. Qed.

Lemma dimension_alone_accepted :
  forall (F V : Type) (orth : nat -> nat -> list (list F)) level d n tr r, 0 <= d -> 0 <= n ->
    let '(res, s) := @new_sample F V orth level NoSample None (Some d) tr r in
    res = Ok tt /\ empty_sample s = true /\
    let '(res2, s2) := set_num orth s n in
    res2 = Ok tt /\ ss_num s2 = Some n /\ ss_dim s2 = Some d /\
    t_rows (ss_sample s2) = orth (Z.to_nat n) (Z.to_nat d) /\ ss_idx s2 = Some (range n).
Proof.
  intros F V orth level d n tr r Hd Hn. cbn. split; [reflexivity|]. split; [reflexivity|].
  assert (E : (n <? 0) || (d <? 0) = false) by (apply orb_false_iff; split; apply Z.ltb_ge; lia).
  rewrite E. cbn. repeat split.
Qed.
