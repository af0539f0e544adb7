(** Time, histogram and sigmoid kernels: proofs. *)
From Coq Require Import ZArith Permutation.
From Verif Require Import Base RVec RVecProofs KernelR KernelRSpec Psd KernelRProofs TimeR TimeRSpec.
Open Scope R_scope.

(** * Hat *)


Lemma guarded_value f x y : length x <> 1%nat -> length y <> 1%nat -> guarded f x y = Ok (map (fun a => map (f a) y) x).
Proof.
  intros Hx Hy. unfold guarded, two_dims.
  destruct (Nat.eqb_spec (length x) 1) as [E|_]; [contradiction|].
  destruct (Nat.eqb_spec (length y) 1) as [E|_]; [contradiction|]. reflexivity.
Qed.
Lemma guarded_single f x y : length x = 1%nat \/ length y = 1%nat -> guarded f x y = Err EAssertionError.
Proof. intros [H|H]; unfold guarded, two_dims; rewrite H; cbn; [reflexivity|]. now rewrite Bool.andb_false_r. Qed.


Lemma hat_documented lag x y : -1 <= lag ->
  (Rabs (time x - time y) <= lag \/ lag + 1 <= Rabs (time x - time y)) -> hat lag x y = documented_hat lag x y.
Proof.
  intros Hl H. unfold hat, documented_hat. destruct (Rle_dec _ lag) as [L|L].
  - apply Rmax_left. lra.
  - apply Rmax_right. destruct H as [H|H]; [contradiction|lra].
Qed.
Lemma hat_integers (p : Z) (a b : Z) : (0 <= p)%Z -> hat (IZR p) [IZR a] [IZR b] = documented_hat (IZR p) [IZR a] [IZR b].
Proof.
  intros Hp. apply hat_documented; [apply (IZR_le (-1)); lia|]. cbn [time nth].
  rewrite <- minus_IZR, <- abs_IZR. destruct (Z_le_gt_dec (Z.abs (a - b)) p) as [L|L]; [left; now apply IZR_le|].
  right. rewrite <- plus_IZR. apply IZR_le. lia.
Qed.
Lemma hat_between lag x y : lag < Rabs (time x - time y) < lag + 1 ->
  hat lag x y <> documented_hat lag x y /\ documented_hat lag x y = 0.
Proof.
  intros H. unfold hat, documented_hat. destruct (Rle_dec _ lag) as [L|_]; [lra|].
  split; [|reflexivity]. rewrite Rmax_left by lra. lra.
Qed.

Theorem hat_matrix lag : -1 <= lag -> forall x y, length x <> 1%nat -> length y <> 1%nat ->
  (forall a b, In a x -> In b y -> Rabs (time a - time b) <= lag \/ lag + 1 <= Rabs (time a - time b)) ->
  hat_implicit lag x y = Ok (map (fun a => map (documented_hat lag a) y) x).
Proof.
  intros Hl x y Hx Hy H. unfold hat_implicit. rewrite guarded_value by assumption. f_equal.
  apply map_ext_in. intros a Ha. apply map_ext_in. intros b Hb. apply hat_documented; [exact Hl|now apply H].
Qed.

(** ** The hat kernel is positive semi-definite

    The overlap of two intervals of length [lag + 1], cut at all the end points. *)

Fixpoint cuts (l : vec) : list (R * R) :=
  match l with
  | a :: ((b :: _) as l') => (a, b) :: cuts l'
  | _ => []
  end.
Definition inside (a b : R) (c : R * R) : R := if Rle_dec a (fst c) then if Rle_dec (snd c) b then 1 else 0 else 0.
Definition measure (a b : R) (l : vec) : R := sum (map (fun c => (snd c - fst c) * inside a b c) (cuts l)).

Lemma cuts_bounds l c : ascending l -> In c (cuts l) -> fst c <= snd c /\ In (fst c) l /\ In (snd c) l.
Proof.
  induction l as [|a [|b l] IH]; intros H I; [destruct I|destruct I|]. destruct H as [Ha Hl].
  destruct I as [<-|I].
  - cbn [fst snd]. split; [now apply Forall_inv in Ha|]. split; [now left|right; now left].
  - destruct (IH Hl I) as (L & I1 & I2). split; [exact L|]. split; now right.
Qed.
Lemma measure_zero a b l : ascending l -> b <= a -> measure a b l = 0.
Proof.
  intros Hl Hb. unfold measure. rewrite <- (sum_zero (map (fun c => (snd c - fst c) * inside a b c) (cuts l))); [reflexivity|].
  apply Forall_map. apply Forall_forall. intros c I. destruct (cuts_bounds l c Hl I) as (L & _).
  unfold inside. destruct (Rle_dec a (fst c)) as [A|A]; [|ring]. destruct (Rle_dec (snd c) b) as [B|B]; [|ring].
  replace (snd c - fst c) with 0 by lra. ring.
Qed.
Lemma measure_from a b l : ascending (a :: l) -> In b (a :: l) -> measure a b (a :: l) = b - a.
Proof.
  revert a. induction l as [|c l IH]; intros a H I.
  - destruct I as [<-|[]]. cbn. ring.
  - destruct H as [Ha Hl]. pose proof (Forall_inv Ha) as Hac.
    assert (Hs : measure a b (a :: c :: l) = (c - a) * inside a b (a, c) + measure a b (c :: l)) by reflexivity.
    rewrite Hs.
    assert (M : measure a b (c :: l) = measure c b (c :: l)).
    { unfold measure. apply sum_map_ext. intros e Ie. destruct (cuts_bounds _ _ Hl Ie) as (L & I1 & _).
      assert (c <= fst e).
      { destruct I1 as [E|I1]; [lra|]. destruct Hl as [Hc _]. exact (proj1 (Forall_forall _ _) Hc _ I1). }
      f_equal. unfold inside. destruct (Rle_dec a (fst e)); [|lra]. destruct (Rle_dec c (fst e)); [reflexivity|lra]. }
    rewrite M. unfold inside. cbn [fst snd]. destruct (Rle_dec a a) as [_|N]; [|lra].
    destruct I as [<-|I].
    + rewrite (measure_zero c a (c :: l) Hl) by exact Hac. destruct (Rle_dec c a) as [E|_]; [|ring].
      replace (c - a) with 0 by lra. ring.
    + rewrite (IH c Hl I). assert (Hcb : c <= b).
      { destruct I as [<-|I]; [lra|]. destruct Hl as [Hc _]. exact (proj1 (Forall_forall _ _) Hc _ I). }
      destruct (Rle_dec c b) as [_|N]; [ring|contradiction].
Qed.
Lemma measure_skip a b c l : c < a -> measure a b (c :: l) = measure a b l.
Proof.
  intros H. destruct l as [|e l]; [reflexivity|]. unfold measure. cbn [cuts map]. rewrite sum_cons. unfold inside at 1. cbn [fst].
  destruct (Rle_dec a c); [lra|]. ring.
Qed.
Lemma measure_value a b l : ascending l -> In a l -> In b l -> a <= b -> measure a b l = b - a.
Proof.
  induction l as [|c l IH]; intros Hl Ia Ib Hab; [destruct Ia|].
  destruct (Req_dec c a) as [->|N]; [now apply measure_from|].
  destruct Ia as [E|Ia]; [contradiction|]. destruct Hl as [Hc Hl].
  pose proof (proj1 (Forall_forall _ _) Hc _ Ia) as L. cbn in L. assert (Hlt : c < a) by lra.
  rewrite measure_skip by exact Hlt. destruct Ib as [<-|Ib]; [lra|]. now apply IH.
Qed.

Lemma inside_inter a a' b b' c : inside (Rmax a a') (Rmin b b') c = inside a b c * inside a' b' c.
Proof.
  unfold inside, Rmax, Rmin. destruct (Rle_dec a a'), (Rle_dec b b'); repeat destruct (Rle_dec _ _); try lra.
Qed.

Lemma hat_real_psd L : psd_on (fun _ : R => True) (fun x y => Rmax (L - Rabs (x - y)) 0).
Proof.
  apply psd_finite. intros s _.
  set (T := sort (s ++ map (fun x => x + L) s)).
  assert (HT : forall x, In x s -> In x T /\ In (x + L) T).
  { intros x Hx. split; apply (Permutation_in _ (sort_perm _)); apply in_or_app; [now left|].
    right. exact (in_map (fun x => x + L) s x Hx). }
  apply (psd_ext _ (fun x y => sum (map (fun c => (snd c - fst c) * (inside x (x + L) c * inside y (y + L) c * 1)) (cuts T)))).
  - intros x y Hx Hy.
    transitivity (measure (Rmax x y) (Rmin (x + L) (y + L)) T).
    { unfold measure. apply sum_map_ext. intros c _. rewrite inside_inter. ring. }
    assert (Asc : ascending T) by apply sort_ascending.
    destruct (Rle_dec (Rmax x y) (Rmin (x + L) (y + L))) as [O|O].
    + rewrite measure_value; [|exact Asc| | |exact O].
      * revert O. unfold Rmax, Rmin. destruct (Rle_dec x y) as [A|A], (Rle_dec (x + L) (y + L)) as [B|B]; try lra; intros O;
          [rewrite (Rabs_left1 (x - y)) by lra|rewrite (Rabs_right (x - y)) by lra];
          match goal with |- context [Rle_dec ?p ?q] => destruct (Rle_dec p q) end; lra.
      * unfold Rmax. destruct (Rle_dec x y); [apply (HT y Hy)|apply (HT x Hx)].
      * unfold Rmin. destruct (Rle_dec _ _); [apply (HT x Hx)|apply (HT y Hy)].
    + rewrite measure_zero; [|exact Asc|lra]. symmetry. apply Rmax_right. revert O. unfold Rmax, Rmin.
      destruct (Rle_dec x y) as [A|A], (Rle_dec (x + L) (y + L)) as [B|B]; try lra; intros O;
        [rewrite (Rabs_left1 (x - y)) by lra|rewrite (Rabs_right (x - y)) by lra]; lra.
  - apply (psd_sum (fun x => In x s) (fun c x y => (snd c - fst c) * (inside x (x + L) c * inside y (y + L) c * 1))).
    intros c Hc. apply psd_scale.
    + destruct (cuts_bounds T c (sort_ascending _) Hc) as (Lc & _). lra.
    + apply (psd_conj _ (fun x => inside x (x + L) c) (fun _ _ => 1)). apply psd_one.
Qed.

Theorem hat_psd lag : psd_on point (hat lag).
Proof.
  apply (psd_ext _ (fun x y => Rmax (lag + 1 - Rabs (time x - time y)) 0)); [reflexivity|].
  apply (psd_map time point (fun _ => True) (fun x y => Rmax (lag + 1 - Rabs (x - y)) 0)); [auto|]. apply hat_real_psd.
Qed.
Lemma hat_sym lag x y : hat lag x y = hat lag y x.
Proof. unfold hat. now rewrite Rabs_minus_sym. Qed.

(** * Indicator *)

Definition eqz (a b : Z) : R := if Z.eqb a b then 1 else 0.
Lemma sum_eqz (a : Z) (g : Z -> R) l : NoDup l -> In a l -> sum (map (fun t => eqz a t * g t) l) = g a.
Proof.
  induction 1 as [|b l Hb Hn IH]; intros I; [destruct I|]. cbn [map]. rewrite sum_cons. destruct I as [->|I].
  - unfold eqz at 1. rewrite Z.eqb_refl, Rmult_1_l.
    rewrite <- (Rplus_0_r (g a)) at 2. f_equal. apply sum_zero. apply Forall_map. apply Forall_forall. intros t Ht.
    unfold eqz. destruct (Z.eqb_spec a t) as [->|_]; [contradiction|ring].
  - rewrite IH by exact I. unfold eqz. destruct (Z.eqb_spec a b) as [->|_]; [contradiction|ring].
Qed.
Lemma sum_eqz_out (a : Z) (g : Z -> R) l : ~ In a l -> sum (map (fun t => eqz a t * g t) l) = 0.
Proof.
  intros N. apply sum_zero. apply Forall_map. apply Forall_forall. intros t Ht.
  unfold eqz. destruct (Z.eqb_spec a t) as [->|_]; [contradiction|ring].
Qed.

Definition zrange (a : Z) (n : nat) : list Z := map (fun i => (a + Z.of_nat i)%Z) (seq 0 n).
Lemma zrange_In a n t : In t (zrange a n) <-> (a <= t < a + Z.of_nat n)%Z.
Proof.
  unfold zrange. rewrite in_map_iff. split.
  - intros (i & <- & Hi). apply in_seq in Hi. lia.
  - intros H. exists (Z.to_nat (t - a)). split; [lia|]. apply in_seq. lia.
Qed.
Lemma zrange_NoDup a n : NoDup (zrange a n).
Proof. unfold zrange. apply FinFun.Injective_map_NoDup; [|apply seq_NoDup]. intros i j H. lia. Qed.

(** Neighbours at distance between one and [n]. *)
Definition near (n : nat) (a b : Z) : R := if (0 <? Z.abs (a - b))%Z && (Z.abs (a - b) <=? Z.of_nat n)%Z then 1 else 0.

Lemma near_sum n a b : sum (map (fun d => eqz b (a + d) + eqz b (a - d)) (zrange 1 n)) = near n a b.
Proof.
  rewrite sum_map_plus.
  assert (E1 : sum (map (fun d => eqz b (a + d)) (zrange 1 n)) = sum (map (fun d => eqz (b - a) d * 1) (zrange 1 n))).
  { apply sum_map_ext. intros d _. unfold eqz. destruct (Z.eqb_spec b (a + d)), (Z.eqb_spec (b - a) d); try lia; ring. }
  assert (E2 : sum (map (fun d => eqz b (a - d)) (zrange 1 n)) = sum (map (fun d => eqz (a - b) d * 1) (zrange 1 n))).
  { apply sum_map_ext. intros d _. unfold eqz. destruct (Z.eqb_spec b (a - d)), (Z.eqb_spec (a - b) d); try lia; ring. }
  rewrite E1, E2. clear E1 E2. unfold near.
  destruct (In_dec Z.eq_dec (b - a)%Z (zrange 1 n)) as [I1|I1].
  - rewrite (sum_eqz (b - a)%Z (fun _ => 1)) by (exact I1 || apply zrange_NoDup). apply zrange_In in I1.
    rewrite (sum_eqz_out (a - b)%Z (fun _ => 1)) by (rewrite zrange_In; lia).
    destruct (Z.ltb_spec 0 (Z.abs (a - b))); [|lia]. destruct (Z.leb_spec (Z.abs (a - b)) (Z.of_nat n)); [|lia]. cbn. ring.
  - rewrite (sum_eqz_out (b - a)%Z (fun _ => 1)) by exact I1.
    destruct (In_dec Z.eq_dec (a - b)%Z (zrange 1 n)) as [I2|I2].
    + rewrite (sum_eqz (a - b)%Z (fun _ => 1)) by (exact I2 || apply zrange_NoDup). apply zrange_In in I2.
      destruct (Z.ltb_spec 0 (Z.abs (a - b))); [|lia]. destruct (Z.leb_spec (Z.abs (a - b)) (Z.of_nat n)); [|lia]. cbn. ring.
    + rewrite (sum_eqz_out (a - b)%Z (fun _ => 1)) by exact I2. rewrite zrange_In in I1, I2.
      destruct (Z.ltb_spec 0 (Z.abs (a - b))); [|cbn; ring]. destruct (Z.leb_spec (Z.abs (a - b)) (Z.of_nat n)); [lia|cbn; ring].
Qed.

Lemma eqz_psd (dom : Z -> Prop) (N : nat) : (forall z, dom z -> (Z.abs z <= Z.of_nat N)%Z) -> psd_on dom eqz.
Proof.
  intros Hd. set (T := zrange (- Z.of_nat N) (2 * N + 1)).
  apply (psd_ext _ (fun a b => sum (map (fun t => eqz a t * eqz b t * 1) T))).
  - intros a b Ha Hb. transitivity (sum (map (fun t => eqz a t * eqz b t) T)); [apply sum_map_ext; intros; ring|].
    rewrite (sum_eqz a (fun t => eqz b t)); [|apply zrange_NoDup|apply zrange_In; specialize (Hd a Ha); lia].
    unfold eqz. now rewrite Z.eqb_sym.
  - apply (psd_sum dom (fun t a b => eqz a t * eqz b t * 1)). intros t _.
    apply (psd_conj _ (fun a => eqz a t) (fun _ _ => 1)). apply psd_one.
Qed.
Lemma near_psd (dom : Z -> Prop) (N n : nat) : (forall z, dom z -> (Z.abs z <= Z.of_nat N)%Z) ->
  psd_on dom (fun a b => 2 * INR n * eqz a b + near n a b).
Proof.
  intros Hd. set (T := zrange (- Z.of_nat N - Z.of_nat n) (2 * (N + n) + 1)).
  apply (psd_ext _ (fun a b => sum (map (fun d => sum (map (fun t =>
     (eqz a t + eqz a (t + d)) * (eqz b t + eqz b (t + d)) * 1) T)) (zrange 1 n)))).
  - intros a b Ha Hb.
    transitivity (sum (map (fun d => (eqz b a + eqz b a) + (eqz b (a + d) + eqz b (a - d))) (zrange 1 n))).
    + apply sum_map_ext. intros d Hdd. apply zrange_In in Hdd.
      transitivity (sum (map (fun t => eqz a t * (eqz b t + eqz b (t + d))) T) +
                    sum (map (fun t => eqz (a - d) t * (eqz b t + eqz b (t + d))) T)).
      * rewrite <- sum_map_plus. apply sum_map_ext. intros t _.
        replace (eqz (a - d) t) with (eqz a (t + d)); [ring|]. unfold eqz.
        destruct (Z.eqb_spec a (t + d)), (Z.eqb_spec (a - d) t); try lia; reflexivity.
      * specialize (Hd a Ha).
        rewrite (sum_eqz a (fun t => eqz b t + eqz b (t + d))); [|apply zrange_NoDup|apply zrange_In; lia].
        rewrite (sum_eqz (a - d) (fun t => eqz b t + eqz b (t + d))); [|apply zrange_NoDup|apply zrange_In; lia].
        replace (a - d + d)%Z with a by lia. ring.
    + rewrite sum_map_plus, near_sum, sum_map_const. unfold zrange. rewrite map_length, seq_length.
      unfold eqz. rewrite Z.eqb_sym. ring.
  - apply (psd_sum dom (fun d a b => sum (map (fun t => (eqz a t + eqz a (t + d)) * (eqz b t + eqz b (t + d)) * 1) T))).
    intros d _. apply (psd_sum dom (fun t a b => (eqz a t + eqz a (t + d)) * (eqz b t + eqz b (t + d)) * 1)). intros t _.
    apply (psd_conj _ (fun a => eqz a t + eqz a (t + d)) (fun _ _ => 1)). apply psd_one.
Qed.

(** The indicator kernel between integers. *)
Definition zind (lag gamma : R) (a b : Z) : R := ind lag gamma [IZR a] [IZR b].
Lemma zind_value lag gamma a b : 0 <= lag ->
  zind lag gamma a b = gamma * eqz a b + near (Z.to_nat (Int_part lag)) a b.
Proof.
  intros Hl. unfold zind, ind. cbn [time nth]. rewrite <- minus_IZR, <- abs_IZR.
  destruct (base_Int_part lag) as [B1 B2]. set (p := Int_part lag) in *.
  assert (Hp : (0 <= p)%Z).
  { assert (-1 < IZR p) by lra. apply lt_IZR in H. lia. }
  unfold eqz, near. rewrite Z2Nat.id by exact Hp.
  destruct (Req_EM_T (IZR (a - b)) 0) as [E|E].
  - apply eq_IZR in E. destruct (Z.eqb_spec a b); [|lia]. destruct (Z.ltb_spec 0 (Z.abs (a - b))); [lia|]. cbn. ring.
  - destruct (Z.eqb_spec a b) as [->|Hab]; [exfalso; apply E; now rewrite Z.sub_diag|].
    destruct (Z.ltb_spec 0 (Z.abs (a - b))); [|lia]. cbn [andb].
    destruct (Rle_dec (IZR (Z.abs (a - b))) lag) as [L|L]; destruct (Z.leb_spec (Z.abs (a - b)) p) as [M|M]; try ring.
    + exfalso. assert (IZR (Z.abs (a - b)) < IZR (p + 1)) by (rewrite plus_IZR; lra). apply lt_IZR in H0. lia.
    + exfalso. apply L. apply IZR_le in M. lra.
Qed.
Lemma bounded_all (s : list Z) : exists N, forall z, In z s -> (Z.abs z <= Z.of_nat N)%Z.
Proof.
  induction s as [|a s (N & H)]; [exists O; intros z []|]. exists (N + Z.to_nat (Z.abs a))%nat.
  intros z [<-|I]; [lia|]. specialize (H z I). lia.
Qed.
Lemma zind_psd lag gamma : 0 <= lag -> 2 * lag <= gamma -> psd_on (fun _ : Z => True) (zind lag gamma).
Proof.
  intros Hl Hg. apply psd_finite. intros s _. destruct (bounded_all s) as (N & HN).
  set (n := Z.to_nat (Int_part lag)).
  assert (Hn : INR n <= lag).
  { unfold n. destruct (base_Int_part lag) as [B1 B2]. assert (Hp : (0 <= Int_part lag)%Z).
    { assert (H : -1 < IZR (Int_part lag)) by lra. apply lt_IZR in H. lia. }
    rewrite INR_IZR_INZ, Z2Nat.id by exact Hp. exact B1. }
  apply (psd_ext _ (fun a b => (gamma - 2 * INR n) * eqz a b + (2 * INR n * eqz a b + near n a b))).
  - intros a b _ _. rewrite zind_value by exact Hl. fold n. ring.
  - apply psd_plus; [apply psd_scale; [lra|]; now apply (eqz_psd _ N)|now apply (near_psd _ N)].
Qed.

Lemma ind_psd lag gamma : 0 <= lag -> 2 * lag <= gamma -> psd_on integer_point (ind lag gamma).
Proof.
  intros Hl Hg s c Hs Hc.
  assert (E : exists zs, s = map (fun z => [IZR z]) zs).
  { clear - Hs. induction Hs as [|x s (z & ->) _ (zs & ->)]; [now exists []|]. now exists (z :: zs). }
  destruct E as (zs & ->). rewrite map_length in Hc.
  pose proof (zind_psd lag gamma Hl Hg zs c ltac:(apply Forall_forall; auto) Hc) as H.
  unfold matrix_of in H |- *. rewrite map_map.
  replace (map (fun x => map (ind lag gamma [IZR x]) (map (fun z => [IZR z]) zs)) zs) with (map (fun a => map (zind lag gamma a) zs) zs);
    [exact H|]. apply map_ext. intros a. now rewrite map_map.
Qed.
Lemma ind_sym lag gamma x y : ind lag gamma x y = ind lag gamma y x.
Proof.
  unfold ind. rewrite (Rabs_minus_sym (time x)).
  destruct (Req_EM_T (time x - time y) 0), (Req_EM_T (time y - time x) 0); try lra; reflexivity.
Qed.

Theorem indicator_default_psd lag : 0 <= lag ->
  forall x, length x <> 1%nat -> Forall integer_point x ->
  exists m, indicator_implicit (indicator_init lag None false) x x = Ok m /\
    m = matrix_of (ind lag (2 * lag + 1)) x /\
    (forall i j, nth j (nth i m []) 0 = nth i (nth j m []) 0) /\
    forall c, length c = length x -> 0 <= quadratic m c.
Proof.
  intros Hl x Hx Hi. exists (matrix_of (ind lag (2 * lag + 1)) x). split.
  - unfold indicator_implicit. cbn. now apply guarded_value.
  - split; [reflexivity|]. split.
    + intros i j. unfold matrix_of.
      assert (G : forall i j, nth j (nth i (map (fun a => map (ind lag (2 * lag + 1) a) x) x) []) 0 =
        if (Nat.ltb i (length x) && Nat.ltb j (length x))%bool then ind lag (2 * lag + 1) (nth i x []) (nth j x []) else 0).
      { clear. intros i j. destruct (Nat.ltb_spec i (length x)) as [Hi|Hi]; cbn [andb].
        - rewrite (nth_indep _ [] (map (ind lag (2 * lag + 1) []) x)) by (now rewrite map_length).
          rewrite (map_nth (fun a => map (ind lag (2 * lag + 1) a) x)).
          destruct (Nat.ltb_spec j (length x)) as [Hj|Hj].
          + rewrite (nth_indep _ 0 (ind lag (2 * lag + 1) (nth i x []) [])) by (now rewrite map_length). now rewrite map_nth.
          + apply nth_overflow. now rewrite map_length.
        - rewrite (nth_overflow (map _ x)) by (now rewrite map_length). now destruct j. }
      rewrite !G. rewrite Bool.andb_comm. destruct (_ && _)%bool; [apply ind_sym|reflexivity].
    + intros c Hc. apply (ind_psd lag (2 * lag + 1)); [exact Hl|lra|exact Hi|exact Hc].
Qed.
Lemma indicator_lag_keeps_gamma k os : (forall o, In o os -> exists l, o = SetLag l) ->
  i_gamma (indicator_run k os) = i_gamma k.
Proof.
  revert k. induction os as [|o os IH]; intros k H; [reflexivity|]. cbn [indicator_run fold_left].
  fold (indicator_run (indicator_step k o) os). rewrite IH by (intros; apply H; now right).
  destruct (H o (or_introl eq_refl)) as (l & ->). reflexivity.
Qed.

Ltac decide_R := repeat match goal with
  | |- context [Req_EM_T ?a ?b] => destruct (Req_EM_T a b); try (exfalso; lra)
  | |- context [Rle_dec ?a ?b] => destruct (Rle_dec a b); try (exfalso; lra)
  end.
Lemma Rabs_m1 : Rabs (0 - 1) = 1. Proof. rewrite Rabs_left1; lra. Qed.
Theorem indicator_lag_changed :
  exists x m c, indicator_implicit (indicator_run (indicator_init 0 None false) [SetLag 1]) x x = Ok m /\
    Forall integer_point x /\ NoDup x /\ length c = length x /\ quadratic m c < 0.
Proof.
  exists [[0]; [1]; [2]], [[1; 1; 0]; [1; 1; 1]; [0; 1; 1]], [2; -3; 2]. split; [|split; [|split; [|split]]].
  - unfold indicator_implicit, indicator_run, indicator_init, guarded. cbn [fold_left indicator_step i_linked i_trainable i_lag i_gamma andb two_dims length Nat.eqb negb map].
    unfold ind. cbn [time nth].
    replace (0 - 0) with 0 by ring. replace (1 - 1) with 0 by ring. replace (2 - 2) with 0 by ring.
    replace (Rabs (0 - 1)) with 1 by (rewrite Rabs_left1; lra). replace (Rabs (0 - 2)) with 2 by (rewrite Rabs_left1; lra).
    replace (Rabs (1 - 0)) with 1 by (rewrite Rabs_right; lra). replace (Rabs (1 - 2)) with 1 by (rewrite Rabs_left1; lra).
    replace (Rabs (2 - 0)) with 2 by (rewrite Rabs_right; lra). replace (Rabs (2 - 1)) with 1 by (rewrite Rabs_right; lra).
    decide_R. replace (2 * 0 + 1) with 1 by ring. reflexivity.
  - constructor; [now exists 0%Z|constructor; [now exists 1%Z|constructor; [now exists 2%Z|constructor]]].
  - assert (N : forall a b : R, a <> b -> [a] <> [b]) by (intros a b H E; injection E; exact H).
    repeat constructor; cbn; intros H; repeat (destruct H as [H|H]; [apply N in H; [exact H|lra]|]); exact H.
  - reflexivity.
  - unfold quadratic, dot. cbn [map zipw sum fold_right]. lra.
Qed.
Theorem indicator_trainable_raises lag os x y : (forall o, In o os -> forall b, o <> SetTrainable b) ->
  indicator_implicit (indicator_run (indicator_init lag None true) os) x y = Err ETypeError.
Proof.
  intros H.
  assert (G : forall k, i_linked k = true -> i_trainable k = true ->
     i_linked (indicator_run k os) = true /\ i_trainable (indicator_run k os) = true).
  { induction os as [|o os IH]; intros k A B; [now split|]. cbn [indicator_run fold_left].
    fold (indicator_run (indicator_step k o) os). apply IH; [intros; apply H; now right| |];
    destruct o as [l|g|b]; try assumption; now destruct (H (SetTrainable b) (or_introl eq_refl) b). }
  destruct (G (indicator_init lag None true) eq_refl eq_refl) as [A B]. unfold indicator_implicit. now rewrite A, B.
Qed.

(** * Chi-squared kernels *)


Lemma chi2_sym x y : chi2 x y = chi2 y x.
Proof.
  unfold chi2. f_equal. apply zipw_comm. intros a b. rewrite (Rplus_comm a b), (Rmult_comm a b). reflexivity.
Qed.
Lemma chi2_term_bounds a b : 0 <= a -> 0 <= b -> 0 <= 2 * (a * b) / Rmax (a + b) EPS <= (a + b) / 2.
Proof.
  intros Ha Hb. pose proof EPS_pos as E. pose proof (Rmax_l (a + b) EPS) as M1. pose proof (Rmax_r (a + b) EPS) as M2.
  set (M := Rmax (a + b) EPS) in *. clearbody M. split.
  - apply Rmult_le_pos; [nra|]. left. apply Rinv_0_lt_compat. lra.
  - apply (Rmult_le_reg_r M); [lra|].
    replace (2 * (a * b) / M * M) with (2 * (a * b)) by (field; lra).
    pose proof (Rmult_le_compat_l (a + b) _ _ ltac:(lra) M1) as Q. pose proof (Rle_0_sqr (a - b)) as S. unfold Rsqr in S. lra.
Qed.
Lemma chi2_bounds x y : length x = length y -> Forall (fun a => 0 <= a) x -> Forall (fun a => 0 <= a) y ->
  0 <= chi2 x y <= (sum x + sum y) / 2.
Proof.
  revert y. unfold chi2. induction x as [|a x IH]; intros [|b y] Hl Hx Hy; try discriminate Hl; [cbn; lra|].
  cbn [zipw]. rewrite !sum_cons. apply Forall_cons_iff in Hx. apply Forall_cons_iff in Hy. destruct Hx as [Ha Hx], Hy as [Hb Hy].
  specialize (IH y ltac:(now injection Hl) Hx Hy). pose proof (chi2_term_bounds a b Ha Hb). lra.
Qed.
Lemma chi2_self x : clear_of_threshold x -> chi2 x x = sum x.
Proof.
  unfold chi2. induction 1 as [|a x Ha _ IH]; [reflexivity|]. cbn [zipw]. rewrite !sum_cons, IH. f_equal.
  pose proof EPS_pos. destruct Ha as [->|Ha]; [unfold Rdiv; ring|].
  rewrite Rmax_left by lra. field. lra.
Qed.
Theorem chi2_similarity x y : length x = length y -> histogram x -> histogram y -> clear_of_threshold x ->
  chi2 x y = chi2 y x /\ 0 <= chi2 x y <= 1 /\ chi2 x x = 1.
Proof.
  intros Hl [Hx Sx] [Hy Sy] Hc. split; [apply chi2_sym|]. split.
  - pose proof (chi2_bounds x y Hl Hx Hy) as B. rewrite Sx, Sy in B. lra.
  - now rewrite chi2_self.
Qed.

Lemma product_cons a l : product (a :: l) = a * product l.
Proof. reflexivity. Qed.
Lemma skewed_defined p x y : Forall (fun a => 0 <= a + p) x -> Forall (fun a => 0 <= a + p) y ->
  skewed p x y = Some (product (zipw (fun a b => 2 * (sqrt (a + p) * sqrt (b + p)) / Rmax (a + b + 2 * p) EPS) x y)).
Proof.
  intros Hx Hy. unfold skewed. replace (forallb _ _) with true; [reflexivity|]. symmetry. apply forallb_forall.
  intros a Ha. destruct (Rlt_dec (a + p) 0) as [N|_]; [exfalso|reflexivity].
  assert (A : Forall (fun a => 0 <= a + p) (x ++ y)) by (apply Forall_app; now split).
  pose proof (proj1 (Forall_forall _ _) A a Ha) as K. cbv beta in K. lra.
Qed.
Lemma skewed_term_bounds p a b : 0 <= a + p -> 0 <= b + p ->
  0 <= 2 * (sqrt (a + p) * sqrt (b + p)) / Rmax (a + b + 2 * p) EPS <= 1.
Proof.
  intros Ha Hb. pose proof EPS_pos as E. pose proof (Rmax_l (a + b + 2 * p) EPS) as M1. pose proof (Rmax_r (a + b + 2 * p) EPS) as M2.
  set (M := Rmax (a + b + 2 * p) EPS) in *. clearbody M.
  pose proof (sqrt_pos (a + p)) as Pa. pose proof (sqrt_pos (b + p)) as Pb.
  pose proof (sqrt_sqrt _ Ha) as Sa. pose proof (sqrt_sqrt _ Hb) as Sb. split.
  - apply Rmult_le_pos; [nra|]. left. apply Rinv_0_lt_compat. lra.
  - apply (Rmult_le_reg_r M); [lra|].
    replace (2 * (sqrt (a + p) * sqrt (b + p)) / M * M) with (2 * (sqrt (a + p) * sqrt (b + p))) by (field; lra).
    pose proof (Rle_0_sqr (sqrt (a + p) - sqrt (b + p))) as Q. unfold Rsqr in Q. lra.
Qed.
Lemma product_bounds l : Forall (fun a => 0 <= a <= 1) l -> 0 <= product l <= 1.
Proof. induction 1 as [|a l Ha _ IH]; [cbn; lra|]. rewrite product_cons. nra. Qed.
Theorem skewed_similarity p x y : length x = length y ->
  Forall (fun a => 0 <= a + p) x -> Forall (fun a => 0 <= a + p) y ->
  exists v, skewed p x y = Some v /\ skewed p y x = Some v /\ 0 <= v <= 1.
Proof.
  intros Hl Hx Hy. eexists. split; [now apply skewed_defined|]. split.
  - rewrite skewed_defined by assumption. do 2 f_equal. apply zipw_comm. intros a b.
    rewrite (Rplus_comm a b), (Rmult_comm (sqrt (a + p))). reflexivity.
  - apply product_bounds. clear Hl. revert y Hy. induction Hx as [|a x Ha _ IH]; intros [|b y] Hy; cbn [zipw]; constructor.
    + apply Forall_inv in Hy. now apply skewed_term_bounds.
    + apply IH. now apply Forall_inv_tail in Hy.
Qed.
Theorem skewed_self p x : Forall (fun a => EPS <= 2 * (a + p)) x -> skewed p x x = Some 1.
Proof.
  intros H. pose proof EPS_pos as E.
  assert (H0 : Forall (fun a => 0 <= a + p) x) by (eapply Forall_impl; [|exact H]; intros a Ha; cbv beta in Ha; lra).
  rewrite skewed_defined by assumption. f_equal. clear H0. induction H as [|a x Ha _ IH]; [reflexivity|].
  cbn [zipw]. rewrite product_cons, IH. rewrite sqrt_sqrt by lra. rewrite Rmax_left by lra. field. lra.
Qed.
(** A feature equal to minus [p] makes the kernel vanish, also of a point with itself:
    with the default [p = 0], any empty bin. *)
Theorem skewed_zero p x : Forall (fun a => 0 <= a + p) x -> In (- p) x -> skewed p x x = Some 0.
Proof.
  intros H I. rewrite skewed_defined by assumption. f_equal. clear H. induction x as [|a x IH]; [destruct I|].
  cbn [zipw]. rewrite product_cons. destruct I as [->|I]; [|rewrite IH by exact I; ring].
  replace (- p + p) with 0 by ring. rewrite sqrt_0. unfold Rdiv. ring.
Qed.

(** * Sigmoid *)

Lemma sigmoid_bounds t : 0 < sigmoid t < 1.
Proof.
  unfold sigmoid. pose proof (exp_pos (- t)) as E. split; [apply Rinv_0_lt_compat; lra|].
  apply (Rmult_lt_reg_r (1 + exp (- t))); [lra|]. rewrite Rinv_l by lra. lra.
Qed.
Theorem sigmoid_sym_bounded a b x y : sigmoid_kernel a b x y = sigmoid_kernel a b y x /\ 0 < sigmoid_kernel a b x y < 1.
Proof. unfold sigmoid_kernel. split; [now rewrite dot_comm|apply sigmoid_bounds]. Qed.
Lemma sigmoid_exp t : sigmoid t = exp t / (1 + exp t).
Proof. unfold sigmoid. rewrite exp_Ropp. pose proof (exp_pos t). field. split; lra. Qed.
(** The documentation warns that it is not positive semi-definite. *)
Theorem sigmoid_not_psd : ~ psd_on (fun x => length x = 1%nat) (sigmoid_kernel 1 0).
Proof.
  intros H. set (p := sigmoid 1). set (q := sigmoid 3). set (r := sigmoid 9).
  assert (Hd : Forall (fun x : vec => length x = 1%nat) [[1]; [3]]) by (repeat constructor).
  specialize (H [[1]; [3]] [q; - p] Hd eq_refl).
  assert (E : quadratic (@matrix_of vec (sigmoid_kernel 1 0) [[1]; [3]]) [q; - p] = p * (p * r - q * q)).
  { unfold quadratic, matrix_of, sigmoid_kernel, dot. cbn [map zipw sum fold_right].
    replace (1 * (1 * 1 + 0) + 0) with 1 by ring. replace (1 * (1 * 3 + 0) + 0) with 3 by ring.
    replace (1 * (3 * 1 + 0) + 0) with 3 by ring. replace (1 * (3 * 3 + 0) + 0) with 9 by ring.
    fold p q r. ring. }
  assert (H1 : 0 <= p * (p * r - q * q)) by (rewrite <- E; exact H).
  clear H. pose proof (sigmoid_bounds 1) as Bp. pose proof (sigmoid_bounds 9) as Br. fold p in Bp. fold r in Br.
  assert (L : p < q * q).
  { unfold p, q. rewrite !sigmoid_exp. set (e := exp 1).
    assert (He : 2 < e).
    { pose proof (exp_ineq1 1 ltac:(lra)). unfold e. lra. }
    assert (E3 : exp 3 = e * e * e) by (unfold e; rewrite <- !exp_plus; f_equal; ring).
    rewrite E3. set (c := e * e * e).
    assert (Hc : 8 < c) by (unfold c; nra).
    apply (Rmult_lt_reg_r ((1 + e) * ((1 + c) * (1 + c)))); [nra|].
    replace (e / (1 + e) * ((1 + e) * ((1 + c) * (1 + c)))) with (e * ((1 + c) * (1 + c))) by (field; lra).
    replace (c / (1 + c) * (c / (1 + c)) * ((1 + e) * ((1 + c) * (1 + c)))) with (c * c * (1 + e)) by (field; lra).
    assert (Q : e * (1 + 2 * c) < c * c); [|nra].
    assert (Q2 : c = e * (e * e)) by (unfold c; ring).
    assert (4 < e * e) by nra. replace (c * c) with (e * (e * e * c)) by (rewrite Q2 at 2; ring).
    apply Rmult_lt_compat_l; [lra|]. nra. }
  assert (p * r < p) by nra. nra.
Qed.

(** * Documented formulas *)

Lemma eps_le_two : EPS <= 2.
Proof. unfold EPS. apply (Rle_trans _ (/ 1)); [|rewrite Rinv_1; lra]. apply Rinv_le_contravar; lra. Qed.
Theorem additive_documented x y : Forall2 (fun a b => EPS <= a + b) x y -> chi2 x y = documented_additive x y.
Proof.
  unfold chi2, documented_additive. induction 1 as [|a b x y H _ IH]; [reflexivity|]. cbn [zipw]. rewrite !sum_cons, IH.
  rewrite Rmax_left by exact H. f_equal. unfold Rdiv. ring.
Qed.
Theorem skewed_documented_one x y : Forall2 (fun a b => 0 <= a /\ 0 <= b) x y -> skewed 1 x y = Some (documented_skewed 1 x y).
Proof.
  intros H. unfold skewed.
  assert (F : forallb (fun a => if Rlt_dec (a + 1) 0 then false else true) (x ++ y) = true).
  { apply forallb_forall. intros a I.
    assert (P : 0 <= a).
    { apply in_app_or in I. clear -H I. induction H as [|u v x y (Hu & Hv) _ IH]; [destruct I as [[]|[]]|].
      destruct I as [[<-|I]|[<-|I]]; [exact Hu|apply IH; now left|exact Hv|apply IH; now right]. }
    destruct (Rlt_dec (a + 1) 0); [lra|reflexivity]. }
  rewrite F. f_equal. unfold documented_skewed. clear F. induction H as [|a b x y (Ha & Hb) _ IH]; [reflexivity|].
  cbn [zipw product fold_right]. unfold product in IH. rewrite IH. f_equal.
  assert (E : EPS <= 2) by exact eps_le_two. rewrite Rmax_left by lra. replace (a + b + 2 * 1) with (a + b + 2) by ring.
  unfold Rdiv. ring.
Qed.
Theorem skewed_not_documented p a : p <> 1 -> 0 <= a -> EPS <= 2 * (a + p) ->
  exists v, skewed p [a] [a] = Some v /\ v <> documented_skewed p [a] [a].
Proof.
  intros Hp Ha He. exists 1. split; [apply skewed_self; now constructor|].
  pose proof EPS_pos as P. unfold documented_skewed. cbn [zipw product fold_right].
  pose proof (sqrt_sqrt (a + p) ltac:(lra)) as S. rewrite Rmult_1_r.
  replace (2 * sqrt (a + p) * sqrt (a + p)) with (2 * (a + p)) by (rewrite <- S at 1; ring).
  intros E. apply Hp. assert (Q : 2 * (a + p) = a + a + 2); [|lra].
  apply (Rmult_eq_reg_r (/ (a + a + 2))); [|apply Rinv_neq_0_compat; lra]. rewrite Rinv_r by lra. symmetry. exact E.
Qed.
