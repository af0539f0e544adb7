(** The Silverman kernel on the line is positive semi-definite: proofs. *)
From Verif Require Import Base RVec RVecProofs KernelR KernelRSpec Psd KernelRProofs Multiplier PsdKernelProofs PsdCompactProofs TimeR TimeRSpec TimeRProofs.
From Coq Require Import Permutation.
Open Scope R_scope.

(** ** Quadratic forms do not depend on the order of the points *)

Lemma sum_map_perm {A} (g : A -> R) l l' : Permutation l l' -> sum (map g l) = sum (map g l').
Proof.
  induction 1 as [|a l l' _ IH|a b l|l l' l'' _ IH1 _ IH2]; cbn [map]; rewrite ?sum_cons; [reflexivity| | |].
  - now rewrite IH.
  - ring.
  - now rewrite IH1.
Qed.
Lemma qsum_perm {X} (f : X -> X -> R) l l' : Permutation l l' -> qsum f l = qsum f l'.
Proof.
  intros P. unfold qsum. rewrite (sum_map_perm _ l l' P). apply sum_map_ext. intros p _. now apply sum_map_perm.
Qed.
Lemma qsum_cons {X} (f : X -> X -> R) c x l : (forall a b, f a b = f b a) ->
  qsum f ((c, x) :: l) = c * c * f x x + 2 * c * sum (map (fun q => fst q * f x (snd q)) l) + qsum f l.
Proof.
  intros S. unfold qsum. cbn [map]. rewrite !sum_cons. cbn [fst snd].
  assert (E : sum (map (fun p => sum (fst p * c * f (snd p) x :: map (fun q => fst p * fst q * f (snd p) (snd q)) l)) l) =
              c * sum (map (fun q => fst q * f x (snd q)) l) + qsum f l).
  { unfold qsum. rewrite <- sum_map_scal, <- sum_map_plus. apply sum_map_ext. intros p _. rewrite sum_cons, (S (snd p) x). ring. }
  unfold qsum in E. rewrite E.
  replace (sum (map (fun q => c * fst q * f x (snd q)) l)) with (c * sum (map (fun q => fst q * f x (snd q)) l)); [ring|].
  rewrite <- sum_map_scal. apply sum_map_ext. intros. ring.
Qed.

(** ** Decreasing order *)

Fixpoint put (p : R * R) (l : list (R * R)) : list (R * R) :=
  match l with
  | [] => [p]
  | q :: l' => if Rle_dec (snd q) (snd p) then p :: l else q :: put p l'
  end.
Fixpoint arrange (l : list (R * R)) : list (R * R) := match l with [] => [] | p :: l' => put p (arrange l') end.
Fixpoint descending (l : list (R * R)) : Prop :=
  match l with [] => True | p :: l' => Forall (fun q => snd q <= snd p) l' /\ descending l' end.
Lemma put_perm p l : Permutation (p :: l) (put p l).
Proof.
  induction l as [|q l IH]; [reflexivity|]. cbn [put]. destruct (Rle_dec (snd q) (snd p)); [reflexivity|].
  rewrite perm_swap. now constructor.
Qed.
Lemma arrange_perm l : Permutation l (arrange l).
Proof. induction l as [|p l IH]; [reflexivity|]. cbn [arrange]. rewrite <- put_perm. now constructor. Qed.
Lemma put_descending p l : descending l -> descending (put p l).
Proof.
  induction l as [|q l IH]; intros H; [cbn; auto|]. cbn [put]. destruct H as [Hq Hl]. destruct (Rle_dec (snd q) (snd p)) as [L|L].
  - cbn [descending]. split; [|now split]. constructor; [exact L|]. eapply Forall_impl; [|exact Hq]. intros r Hr. cbn in Hr. lra.
  - cbn [descending]. split; [|now apply IH]. apply (Permutation_Forall (put_perm p l)). constructor; [lra|exact Hq].
Qed.
Lemma arrange_descending l : descending (arrange l).
Proof. induction l as [|p l IH]; [exact I|]. cbn [arrange]. now apply put_descending. Qed.

(** ** The damped rotation *)

Definition damped (t : R) : R := exp (- t) * (cos t + sin t).
Definition energy (p q : R) : R := p * p + 2 * (p * q) + 3 * (q * q).
Lemma energy_nonneg p q : 0 <= energy p q.
Proof.
  unfold energy. replace (p * p + 2 * (p * q) + 3 * (q * q)) with ((p + q) * (p + q) + 2 * (q * q)) by ring.
  pose proof (Rle_0_sqr (p + q)) as A. pose proof (Rle_0_sqr q) as B. unfold Rsqr in A, B. lra.
Qed.
Definition turn1 (p q t : R) : R := exp (- t) * (cos t * p - sin t * q).
Definition turn2 (p q t : R) : R := exp (- t) * (sin t * p + cos t * q).

Lemma exp_minus_derive t : derivable_pt_lim (fun u => exp (- u)) t (exp (- t) * -1).
Proof.
  apply (derivable_pt_lim_comp (fun u => - u) exp); [|apply derivable_pt_lim_exp].
  apply (derivable_pt_lim_opp id). apply derivable_pt_lim_id.
Qed.
Lemma turn1_derive p q t : derivable_pt_lim (turn1 p q) t (- turn1 p q t - turn2 p q t).
Proof.
  replace (- turn1 p q t - turn2 p q t) with
    (exp (- t) * -1 * (cos t * p - sin t * q) + exp (- t) * ((- sin t * p + cos t * 0) - (cos t * q + sin t * 0)))
    by (unfold turn1, turn2; ring).
  apply (derivable_pt_lim_mult (fun u => exp (- u)) (fun u => cos u * p - sin u * q)); [apply exp_minus_derive|].
  apply (derivable_pt_lim_minus (fun u => cos u * p) (fun u => sin u * q)).
  - apply (derivable_pt_lim_mult cos (fun _ => p)); [apply derivable_pt_lim_cos|apply derivable_pt_lim_const].
  - apply (derivable_pt_lim_mult sin (fun _ => q)); [apply derivable_pt_lim_sin|apply derivable_pt_lim_const].
Qed.
Lemma turn2_derive p q t : derivable_pt_lim (turn2 p q) t (turn1 p q t - turn2 p q t).
Proof.
  replace (turn1 p q t - turn2 p q t) with
    (exp (- t) * -1 * (sin t * p + cos t * q) + exp (- t) * ((cos t * p + sin t * 0) + (- sin t * q + cos t * 0)))
    by (unfold turn1, turn2; ring).
  apply (derivable_pt_lim_mult (fun u => exp (- u)) (fun u => sin u * p + cos u * q)); [apply exp_minus_derive|].
  apply (derivable_pt_lim_plus (fun u => sin u * p) (fun u => cos u * q)).
  - apply (derivable_pt_lim_mult sin (fun _ => p)); [apply derivable_pt_lim_sin|apply derivable_pt_lim_const].
  - apply (derivable_pt_lim_mult cos (fun _ => q)); [apply derivable_pt_lim_cos|apply derivable_pt_lim_const].
Qed.
Lemma energy_derive p q t :
  derivable_pt_lim (fun u => energy (turn1 p q u) (turn2 p q u)) t (- 8 * (turn2 p q t * turn2 p q t)).
Proof.
  set (a := turn1 p q t). set (b := turn2 p q t).
  replace (-8 * (b * b)) with
    ((((- a - b) * a + a * (- a - b)) + 2 * ((- a - b) * b + a * (a - b))) + 3 * ((a - b) * b + b * (a - b))) by ring.
  unfold energy.
  apply (derivable_pt_lim_plus (fun u => turn1 p q u * turn1 p q u + 2 * (turn1 p q u * turn2 p q u)) (fun u => 3 * (turn2 p q u * turn2 p q u))).
  - apply (derivable_pt_lim_plus (fun u => turn1 p q u * turn1 p q u) (fun u => 2 * (turn1 p q u * turn2 p q u))).
    + apply (derivable_pt_lim_mult (turn1 p q) (turn1 p q)); apply turn1_derive.
    + apply (derivable_pt_lim_scal (fun u => turn1 p q u * turn2 p q u)).
      apply (derivable_pt_lim_mult (turn1 p q) (turn2 p q)); [apply turn1_derive|apply turn2_derive].
  - apply (derivable_pt_lim_scal (fun u => turn2 p q u * turn2 p q u)).
    apply (derivable_pt_lim_mult (turn2 p q) (turn2 p q)); apply turn2_derive.
Qed.
Lemma turn_0 p q : turn1 p q 0 = p /\ turn2 p q 0 = q.
Proof. unfold turn1, turn2. rewrite Ropp_0, exp_0, cos_0, sin_0. split; ring. Qed.
Lemma energy_decreases p q t : 0 <= t -> energy (turn1 p q t) (turn2 p q t) <= energy p q.
Proof.
  intros [H|<-]; [|destruct (turn_0 p q) as [-> ->]; apply Rle_refl].
  destruct (MVT_cor2 (fun u => energy (turn1 p q u) (turn2 p q u)) (fun u => - 8 * (turn2 p q u * turn2 p q u)) 0 t H) as (c & E & Hc).
  - intros u _. apply energy_derive.
  - destruct (turn_0 p q) as [E1 E2]. rewrite E1, E2 in E. pose proof (Rle_0_sqr (turn2 p q c)) as S. unfold Rsqr in S. nra.
Qed.

(** ** Positive semi-definiteness *)

Definition trace1 (l : list (R * R)) (x : R) : R := sum (map (fun p => fst p * (exp (- (x - snd p)) * cos (x - snd p))) l).
Definition trace2 (l : list (R * R)) (x : R) : R := sum (map (fun p => fst p * (exp (- (x - snd p)) * sin (x - snd p))) l).

Lemma trace_turn l x t : trace1 l (x + t) = turn1 (trace1 l x) (trace2 l x) t /\ trace2 l (x + t) = turn2 (trace1 l x) (trace2 l x) t.
Proof.
  unfold trace1, trace2, turn1, turn2. induction l as [|[c a] l [IH1 IH2]]; cbn [map]; [split; cbn; ring|].
  rewrite !sum_cons, IH1, IH2. cbn [fst snd]. replace (x + t - a) with (x - a + t) by ring.
  rewrite Ropp_plus_distr, exp_plus, cos_plus, sin_plus. split; ring.
Qed.

Definition damped_kernel (x y : R) : R := damped (Rabs (x - y)).
Lemma damped_bound l : descending l -> forall x, Forall (fun p => snd p <= x) l -> energy (trace1 l x) (trace2 l x) <= qsum damped_kernel l.
Proof.
  induction l as [|[c a] l IH]; intros Hd x Hx.
  - unfold trace1, trace2, qsum, energy. cbn. lra.
  - destruct Hd as [Ha Hd]. cbn [snd] in Ha. specialize (IH Hd a Ha).
    assert (Hax : a <= x) by (pose proof (Forall_inv Hx) as H; exact H).
    rewrite qsum_cons by (intros u v; unfold damped_kernel; now rewrite Rabs_minus_sym).
    assert (E : sum (map (fun q => fst q * damped_kernel a (snd q)) l) = trace1 l a + trace2 l a).
    { unfold trace1, trace2. rewrite <- sum_map_plus. apply sum_map_ext. intros q Hq.
      pose proof (proj1 (Forall_forall _ _) Ha q Hq) as L. cbn in L. unfold damped_kernel, damped. rewrite Rabs_right by lra. ring. }
    rewrite E.
    assert (D : damped_kernel a a = 1).
    { unfold damped_kernel, damped. rewrite Rminus_diag_eq, Rabs_R0, Ropp_0, exp_0, cos_0, sin_0 by reflexivity. ring. }
    rewrite D.
    assert (T : trace1 ((c, a) :: l) a = c + trace1 l a /\ trace2 ((c, a) :: l) a = trace2 l a).
    { unfold trace1, trace2. cbn [map]. rewrite !sum_cons. cbn [fst snd].
      rewrite Rminus_diag_eq, Ropp_0, exp_0, cos_0, sin_0 by reflexivity. split; ring. }
    replace x with (a + (x - a)) by ring. destruct (trace_turn ((c, a) :: l) a (x - a)) as [-> ->]. destruct T as [-> ->].
    eapply Rle_trans; [apply energy_decreases; lra|]. unfold energy in IH |- *. lra.
Qed.
Lemma upper_bound (l : list (R * R)) : exists x, Forall (fun p => snd p <= x) l.
Proof.
  induction l as [|p l (x & H)]; [exists 0; constructor|]. exists (Rmax (snd p) x). constructor; [apply Rmax_l|].
  eapply Forall_impl; [|exact H]. intros q Hq. cbn in Hq. pose proof (Rmax_r (snd p) x). lra.
Qed.
Lemma damped_psd : psd_on (fun _ : R => True) damped_kernel.
Proof.
  apply psd_qsum. intros l _. rewrite (qsum_perm _ l (arrange l)) by apply arrange_perm.
  destruct (upper_bound (arrange l)) as (x & Hx).
  eapply Rle_trans; [|apply (damped_bound _ (arrange_descending l) x Hx)]. apply energy_nonneg.
Qed.

Theorem silverman_psd d sigma : offered d -> 0 < sigma ->
  exists f, (forall x y, length x = 1%nat -> length y = 1%nat -> kvalue Silverman d sigma x y = Ok (Fin (f x y))) /\
            psd_on (fun x : vec => length x = 1%nat) f.
Proof.
  intros Hd Hs. set (b := sqrt (1 / 2)). assert (Hb : 0 <= b) by apply sqrt_pos.
  exists (fun x y => sin (PI / 4) * damped_kernel (b / sigma * time x) (b / sigma * time y)). split.
  - intros x y Hx Hy. destruct x as [|u [|]]; try discriminate Hx. destruct y as [|v [|]]; try discriminate Hy. cbn [time nth].
    unfold kvalue. pose proof (axis_dist d sigma 0 (u / sigma) (v / sigma) Hd Hs) as E. unfold axis in E. cbn [repeat] in E.
    replace (sigma * (u / sigma)) with u in E by (field; lra). replace (sigma * (v / sigma)) with v in E by (field; lra).
    rewrite E. cbn [bind profile]. do 2 f_equal. fold b.
    replace (b / sigma * u - b / sigma * v) with (b * (u / sigma - v / sigma)) by (field; lra).
    assert (A : b * Rabs (u / sigma - v / sigma) = Rabs (b / sigma * u - b / sigma * v)).
    { replace (b / sigma * u - b / sigma * v) with (b * (u / sigma - v / sigma)) by (field; lra).
      rewrite Rabs_mult, (Rabs_right b); lra. }
    rewrite A. unfold damped_kernel, damped. set (t := Rabs (b / sigma * u - b / sigma * v)). rewrite sin_plus.
    rewrite cos_PI4, sin_PI4. ring.
  - apply psd_scale; [left; apply sin_gt_0; pose proof PI_RGT_0; lra|].
    apply (psd_map (fun x : vec => b / sigma * time x) (fun x : vec => length x = 1%nat) (fun _ => True) damped_kernel); [auto|].
    apply damped_psd.
Qed.
