(** Counterexamples and instances for the numerical properties of transforms. *)
From Verif Require Import Base Cache CacheSpec Beautify TransformTree TransformSpec TransformProofs
  RVec RVecProofs TransformR TransformRSpec TransformRProofs TransformRTree TransformRCenter.
Open Scope R_scope.

Lemma reached_fresh {V D : Type} (num : numerics V D) explicit req level heap s0 :
  documented_level (Some level) -> init_tree req level heap = Ok s0 -> reached num explicit s0.
Proof. intros Hl Hi. exists req, level, heap, s0, []. repeat (split; [assumption|]). split; [exact I|reflexivity]. Qed.

(** Trees just built with a default transform. *)
Lemma fresh_standard {V D : Type} (num : numerics V D) explicit (heap : nat -> D) :
  exists s, reached num explicit s /\ t_heap s = heap /\ t_default s = [UnitVar; MeanCenter].
Proof.
  eexists. split; [apply (reached_fresh num explicit [RName "standardize"] (LStr "normal") heap);
                   [cbn; auto|vm_compute; reflexivity]|]. split; reflexivity.
Qed.
Lemma fresh_kernel {V D : Type} (num : numerics V D) explicit (heap : nat -> D) :
  exists s, reached num explicit s /\ t_heap s = heap /\ t_default s = [Sphere; MeanCenter].
Proof.
  eexists. split; [apply (reached_fresh num explicit [RName "center"; RName "normalize"] (LStr "normal") heap);
                   [cbn; auto|vm_compute; reflexivity]|]. split; reflexivity.
Qed.

(** ** One point has no standard deviation *)
Lemma single_point_not_reverted (v : vec) s x : reached (sample_numerics [v]) true s ->
  exists s1 s2, apply (sample_numerics [v]) true (Some x) None (Some [RName "variance"]) s = (Ok VNaN, s1) /\
    revert (sample_numerics [v]) true VNaN (Some [RName "variance"]) s1 = (Ok VNaN, s2).
Proof.
  intros Hr. destruct (reached_inv _ true s Hr) as (z & Hz).
  destruct (apply_value _ true z s (Some x) None (Some [RName "variance"]) [UnitVar] Hz eq_refl)
    as (s1 & E1 & I1 & H1 & D1).
  destruct (revert_value _ true z s1 VNaN (Some [RName "variance"]) [UnitVar] I1 eq_refl) as (s2 & E2).
  exists s1, s2. rewrite E1, E2. split; reflexivity.
Qed.

(** ** Small norms *)
Definition tiny : mat := [[/ 10 ^ 4]].

Lemma tiny_norm : norm [/ 10 ^ 4] = / 10 ^ 4.
Proof.
  unfold norm. replace (dot [/ 10 ^ 4] [/ 10 ^ 4]) with (/ 10 ^ 4 * / 10 ^ 4) by (cbn [dot zipw sum fold_right]; unfold dot; cbn; ring).
  apply sqrt_square. apply Rlt_le, Rinv_0_lt_compat. lra.
Qed.

Lemma small_norms_disagree se sk :
  reached (sample_numerics tiny) true se ->
  reached (implicit_numerics (fun x => x) (fun x y => gram x y) tiny) false sk ->
  exists se' sk',
    explicit_k (sample_numerics tiny) true None None (Some [RName "normalize"]) se = (Ok (VMat [[1]]), se') /\
    apply (implicit_numerics (fun x => x) (fun x y => gram x y) tiny) false None None (Some [RName "normalize"]) sk =
      (Ok (VMat [[/ 10]]), sk').
Proof.
  intros Re Rk. destruct (reached_inv _ true se Re) as (z & Hz). destruct (reached_inv _ false sk Rk) as (z' & Hz').
  destruct (apply_value _ true z se None None (Some [RName "normalize"]) [Sphere] Hz eq_refl) as (se' & E & _).
  destruct (apply_value _ false z' sk None None (Some [RName "normalize"]) [Sphere] Hz' eq_refl) as (sk' & E' & _).
  assert (Hd : dot [/ 10 ^ 4] [/ 10 ^ 4] = / 10 ^ 8) by (unfold dot; cbn; field).
  assert (He : EPS <= / 10 ^ 4) by (unfold EPS; apply Rinv_le_contravar; lra).
  exists se', sk'. split.
  - unfold explicit_k, mbind. rewrite E. unfold mret.
    apply (f_equal (fun q => (Ok q, se'))).
    change (real_gram (VMat (div_norms tiny (map norm tiny))) (VMat (div_norms tiny (map norm tiny))) = VMat [[1]]).
    unfold tiny. cbn [map div_norms zipw real_gram gram].
    rewrite tiny_norm, (clamp_big _ He). cbn [map]. unfold dot. cbn [zipw sum fold_right].
    do 3 f_equal. field.
  - rewrite E'. apply (f_equal (fun q => (q, sk'))). cbn [value_of kchain_sample].
    change (Ok (real_iapp_sample Sphere (VMat (gram tiny tiny)) (real_sqrt (real_diag (VMat (gram tiny tiny))))) = Ok (VMat [[/ 10]])).
    rewrite sqrt_diag_gram. unfold tiny. cbn [real_iapp_sample gram map scale2 zipw]. rewrite tiny_norm, Hd.
    apply (f_equal (fun q => Ok (VMat [[q]]))).
    replace (/ 10 ^ 4 * / 10 ^ 4) with (/ 10 ^ 8) by field.
    unfold clamp. rewrite Rmax_right by (unfold EPS; apply Rinv_le_contravar; lra). unfold EPS. field.
Qed.

(** ** Kernel matrices that are not symmetric *)
Definition skew : mat := [[0; 1]; [0; 0]].
Lemma skew_columns s : reached (implicit_numerics (fun _ : unit => []) (fun _ _ => skew) tt) false s ->
  exists s', apply (implicit_numerics (fun _ : unit => []) (fun _ _ => skew) tt) false None None
      (Some [RName "center"]) s = (Ok (VMat [[- (3 / 4); 3 / 4]; [- (1 / 4); 1 / 4]]), s').
Proof.
  intros Rk. destruct (reached_inv _ false s Rk) as (z & Hz).
  destruct (apply_value _ false z s None None (Some [RName "center"]) [MeanCenter] Hz eq_refl) as (s' & E & _).
  exists s'. rewrite E. apply (f_equal (fun q => (q, s'))).
  change (Ok (VMat (center2 skew (map mean skew) (map mean skew) (mean (map mean skew)))) =
          Ok (VMat [[- (3 / 4); 3 / 4]; [- (1 / 4); 1 / 4]])).
  assert (E1 : map mean skew = [/ 2; 0]).
  { unfold skew, mean. cbn. f_equal; [field|]. f_equal. field. }
  rewrite E1. assert (E2 : mean [/ 2; 0] = / 4) by (unfold mean; cbn; field). rewrite E2.
  unfold skew, center2. cbn [zipw]. apply (f_equal (fun q => Ok (VMat q))).
  repeat (f_equal; try field).
Qed.

(** ** Instances *)
Definition three : mat := [[1; 2]; [3; 2]; [5; 8]].
Lemma three_rect : rect 2 three.
Proof. repeat constructor. Qed.
Lemma three_std : std (column 0 three) = 2.
Proof.
  unfold std. replace (variance (column 0 three)) with (2 * 2); [apply sqrt_square; lra|].
  unfold variance, mean. cbn. field.
Qed.
Lemma EPS_small : EPS <= / 10.
Proof. unfold EPS. apply Rinv_le_contravar; lra. Qed.
Lemma norm_at_least a c : 0 <= c -> c * c <= dot a a -> c <= norm a.
Proof. intros Hc H. unfold norm. rewrite <- (sqrt_square c Hc). now apply sqrt_le_1_alt. Qed.
