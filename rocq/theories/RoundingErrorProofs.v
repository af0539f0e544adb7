(** Distance kernels with rounding: exact machines and error bounds. *)
From Verif Require Import Base RVec RVecProofs KernelR KernelRSpec KernelRProofs Rounding RoundingSpec RoundingProofs.
From Coq Require Import Permutation.
Open Scope R_scope.

Lemma sum_perm l k : Permutation l k -> sum l = sum k.
Proof. induction 1 as [|a l k P IH|a b l|l k j P1 I1 P2 I2]; cbn; unfold sum in *; lra. Qed.
Lemma nth_seq (l : vec) : map (fun i => nth i l 0) (seq 0 (length l)) = l.
Proof.
  induction l as [|a l IH]; [reflexivity|]. cbn [length seq map nth]. f_equal. rewrite <- seq_shift, map_map. exact IH.
Qed.
Lemma planned m l : sums_all m (length l) -> sum (map (fun i => nth i l 0) (leaves (plan m (length l)))) = sum l.
Proof. intros P. rewrite (sum_perm _ _ (Permutation_map (fun i => nth i l 0) P)). now rewrite nth_seq. Qed.

(** ** Exact machines *)
Lemma added_exact m t l : exact m -> added (rnd m) t l = sum (map (fun i => nth i l 0) (leaves t)).
Proof.
  intros [E _]. induction t as [i|a IHa b IHb]; cbn [added leaves map]; [cbn; ring|].
  now rewrite E, IHa, IHb, map_app, sum_app.
Qed.
Lemma msum_exact m l : exact m -> sums_all m (length l) -> msum m l = sum l.
Proof. intros E P. unfold msum. destruct l as [|v l]; [reflexivity|]. rewrite added_exact by exact E. exact (planned m (v :: l) P). Qed.
Lemma mkvalue_exact m k d sigma x y : exact m -> sums_all m (length (zipw Rminus x y)) -> mkvalue m k d sigma x y = kvalue k d sigma x y.
Proof.
  intros E P. pose proof E as [E1 [E2 E3]].
  assert (D : mdiffs m x y = zipw Rminus x y) by (apply zipw_ext; intros a b; apply E1).
  assert (SQ : msquare_dist m x y = square_dist x y).
  { unfold msquare_dist, square_dist. rewrite D, (map_ext _ _ (fun d => E1 (d * d))), map_zipw. apply msum_exact; [exact E|].
    revert P. rewrite !zipw_length_min. auto. }
  assert (AB : map Rabs (mdiffs m x y) = zipw (fun a b => Rabs (a - b)) x y) by (rewrite D; apply map_zipw).
  assert (SA : msum m (zipw (fun a b => Rabs (a - b)) x y) = sum (zipw (fun a b => Rabs (a - b)) x y)).
  { apply msum_exact; [exact E|]. revert P. rewrite !zipw_length_min. auto. }
  assert (DI : mdist m d x y = dist d x y) by (destruct d; cbn [mdist dist]; rewrite ?E1, ?SQ, ?AB, ?SA; reflexivity).
  assert (OV : forall r, mover m sigma r = over sigma r).
  { intros r. unfold mover, over. destruct (Req_EM_T sigma 0); [reflexivity|]. now rewrite !E1. }
  assert (MF : forall f v, mf m f v = match v with Fin r => Fin (f r) | _ => v end) by (intros f [r| |]; cbn [mf]; rewrite ?E1; reflexivity).
  assert (SS : msquare_dist_sigma m d sigma x y = square_dist_sigma d sigma x y).
  { unfold msquare_dist_sigma, square_dist_sigma. rewrite SQ, DI, !E1. destruct d; try reflexivity; cbn [dist bind]; now rewrite OV, MF. }
  assert (DS : mdist_sigma m d sigma x y = dist_sigma d sigma x y).
  { unfold mdist_sigma, dist_sigma. unfold msquare_dist_sigma, square_dist_sigma. rewrite SQ, DI, !E1.
    destruct d; cbn [bind dist]; rewrite ?OV, ?MF; reflexivity. }
  assert (W : forall f g v, (forall d, f d = g d) -> window f v = window g v).
  { intros f g [r| |] H; cbn [window]; rewrite ?H; reflexivity. }
  assert (PR : forall v, mprofile m k v = profile k v).
  { intros v. destruct k as [ | | | | | | | |[|]]; cbn [mprofile profile]; try (apply W; intros r; unfold cube; rewrite ?E1; cbv zeta; rewrite ?E1; ring);
      try reflexivity; destruct v as [r| |]; try reflexivity; cbv zeta; rewrite ?E1, ?E2, ?E3; reflexivity. }
  unfold mkvalue, kvalue. rewrite SS, DS.
  match goal with |- bind ?X _ = _ => destruct X as [v|e] end; cbn [bind]; [now rewrite PR|reflexivity].
Qed.

(** ** Relative errors *)
Lemma pow_below x n : 0 <= x <= 1 -> x ^ n <= 1.
Proof. intros H. apply (Rle_trans _ (1 ^ n)); [apply pow_incr; exact H|rewrite pow1; lra]. Qed.
Lemma pow_above x n : 1 <= x -> 1 <= x ^ n.
Proof. intros H. apply pow_R1_Rle. exact H. Qed.
Section Near.
  Variable u : R.
  Hypothesis Hu : 0 <= u < 1.
  Definition near (n : nat) (a b : R) : Prop := 0 <= b /\ (1 - u) ^ n * b <= a <= (1 + u) ^ n * b.
  Lemma low_pos n : 0 < (1 - u) ^ n.
  Proof. apply pow_lt. lra. Qed.
  Lemma low_le n k : (n <= k)%nat -> (1 - u) ^ k <= (1 - u) ^ n.
  Proof.
    intros H. replace k with (n + (k - n))%nat by lia. rewrite pow_add. pose proof (low_pos n).
    assert ((1 - u) ^ (k - n) <= 1). { apply pow_below. lra. }
    nra.
  Qed.
  Lemma high_le n k : (n <= k)%nat -> (1 + u) ^ n <= (1 + u) ^ k.
  Proof. intros H. apply Rle_pow; [lra|exact H]. Qed.
  Lemma near_nonneg n a b : near n a b -> 0 <= a.
  Proof. intros [B [L _]]. pose proof (low_pos n). assert (0 <= (1 - u) ^ n * b) by (apply Rmult_le_pos; lra). lra. Qed.
  Lemma near_weak n k a b : (n <= k)%nat -> near n a b -> near k a b.
  Proof.
    intros H [B [L U]]. split; [exact B|]. pose proof (low_le n k H). pose proof (high_le n k H). split; [|]; nra.
  Qed.
  Lemma near_refl b : 0 <= b -> near 0 b b.
  Proof. intros B. split; [exact B|]. cbn. lra. Qed.
  Lemma near_mult n k a b c d : near n a b -> near k c d -> near (n + k) (a * c) (b * d).
  Proof.
    intros N K. pose proof (near_nonneg n a b N) as PA. pose proof (near_nonneg k c d K) as PC.
    destruct N as [B [L U]], K as [D [L' U']]. split; [apply Rmult_le_pos; assumption|]. rewrite !pow_add.
    pose proof (low_pos n). pose proof (low_pos k). split.
    - replace ((1 - u) ^ n * (1 - u) ^ k * (b * d)) with (((1 - u) ^ n * b) * ((1 - u) ^ k * d)) by ring.
      apply Rmult_le_compat; try assumption; apply Rmult_le_pos; lra.
    - replace ((1 + u) ^ n * (1 + u) ^ k * (b * d)) with (((1 + u) ^ n * b) * ((1 + u) ^ k * d)) by ring.
      apply Rmult_le_compat; assumption.
  Qed.
  Lemma near_plus n a b c d : near n a b -> near n c d -> near n (a + c) (b + d).
  Proof. intros [B [L U]] [D [L' U']]. split; [lra|]. split; nra. Qed.
  Lemma near_sqrt n a b : near n a b -> near n (sqrt a) (sqrt b).
  Proof.
    intros N. pose proof (near_nonneg n a b N) as PA. destruct N as [B [L U]]. split; [apply sqrt_pos|].
    pose proof (low_pos n) as P. assert (P1 : (1 - u) ^ n <= 1). { apply pow_below. lra. }
    assert (P2 : 1 <= (1 + u) ^ n). { apply pow_above. lra. }
    split.
    - rewrite <- (sqrt_pow2 ((1 - u) ^ n)) by lra. rewrite <- sqrt_mult by (try apply pow2_ge_0; exact B).
      apply sqrt_le_1_alt. apply (Rle_trans _ ((1 - u) ^ n * b)); [|exact L]. apply Rmult_le_compat_r; [exact B|]. nra.
    - rewrite <- (sqrt_pow2 ((1 + u) ^ n)) by lra. rewrite <- sqrt_mult by (try apply pow2_ge_0; exact B).
      apply sqrt_le_1_alt. apply (Rle_trans _ ((1 + u) ^ n * b)); [exact U|]. apply Rmult_le_compat_r; [exact B|]. nra.
  Qed.
  Lemma near_max n l k : length l = length k -> (forall i, near n (nth i l 0) (nth i k 0)) -> near n (lmax l) (lmax k).
  Proof.
    intros L H. destruct l as [|a l], k as [|b k]; try discriminate; [apply (near_weak 0); [lia|]; apply near_refl; cbn; lra|].
    assert (IL := lmax_In (a :: l) ltac:(discriminate)). assert (IK := lmax_In (b :: k) ltac:(discriminate)).
    apply (In_nth _ _ 0) in IL. apply (In_nth _ _ 0) in IK. destruct IL as [i [Hi Ei]], IK as [j [Hj Ej]].
    destruct (H i) as [Bi [Li Ui]], (H j) as [Bj [Lj Uj]]. pose proof (low_pos n).
    assert (G1 : nth j (a :: l) 0 <= lmax (a :: l)) by (apply lmax_ge, nth_In; lia).
    assert (G2 : nth i (b :: k) 0 <= lmax (b :: k)) by (apply lmax_ge, nth_In; lia).
    split; [rewrite <- Ej; exact Bj|]. split; [rewrite <- Ej at 1; lra|]. rewrite <- Ei at 1.
    apply (Rle_trans _ _ _ Ui). apply Rmult_le_compat_l; [|exact G2]. left. apply pow_lt. lra.
  Qed.

  Variable m : machine.
  Hypothesis Hm : forall x, Rabs (rnd m x - x) <= u * Rabs x.
  Lemma near_rnd n a b : near n a b -> near (S n) (rnd m a) b.
  Proof.
    intros N. pose proof (near_nonneg n a b N) as PA. destruct N as [B [L U]]. split; [exact B|].
    pose proof (Hm a) as H. rewrite (Rabs_pos_eq a PA) in H.
    assert (H1 : (1 - u) * a <= rnd m a <= (1 + u) * a).
    { revert H. unfold Rabs. destruct (Rcase_abs _); intros; lra. }
    cbn [pow]. split; nra.
  Qed.
  Lemma near_added n t l k : length l = length k -> (forall i, near n (nth i l 0) (nth i k 0)) ->
    near (n + depth t) (added (rnd m) t l) (sum (map (fun i => nth i k 0) (leaves t))).
  Proof.
    intros L H. induction t as [i|a IHa b IHb]; cbn [added depth leaves map].
    - rewrite sum_cons. cbn [sum fold_right]. rewrite Rplus_0_r, Nat.add_0_r. apply H.
    - rewrite map_app, sum_app, Nat.add_succ_r. apply near_rnd, near_plus.
      + apply (near_weak (n + depth a)); [lia|exact IHa].
      + apply (near_weak (n + depth b)); [lia|exact IHb].
  Qed.
  Lemma near_msum n l k : length l = length k -> sums_all m (length l) -> (forall i, near n (nth i l 0) (nth i k 0)) ->
    near (n + depth (plan m (length l))) (msum m l) (sum k).
  Proof.
    intros L P H. unfold msum. destruct l as [|a l].
    - destruct k; [|discriminate]. apply (near_weak 0); [lia|]. apply near_refl. cbn. lra.
    - rewrite L in P. rewrite <- (planned m k P), <- L. apply near_added; assumption.
  Qed.
End Near.

(** ** Exponentials *)
Lemma peak s : s * exp (- s) <= exp (- (1)).
Proof.
  pose proof (exp_ineq1_le (s - 1)) as H. pose proof (exp_pos (- s)) as P.
  replace (exp (- (1))) with (exp (s - 1) * exp (- s)) by (rewrite <- exp_plus; f_equal; ring).
  apply Rmult_le_compat_r; lra.
Qed.
Lemma exp_near u n a b : 0 <= u < 1 -> near u n a b ->
  Rabs (exp (- a) - exp (- b)) <= exp (- (1)) * (((1 + u) ^ n - (1 - u) ^ n) / (1 - u) ^ n).
Proof.
  intros Hu [B [L U]]. pose proof (low_pos u Hu n) as P.
  assert (P1 : (1 - u) ^ n <= 1) by (apply pow_below; lra). assert (P2 : 1 <= (1 + u) ^ n) by (apply pow_above; lra).
  set (l := (1 - u) ^ n) in *. set (g := (1 + u) ^ n) in *.
  assert (M : forall c, l * b <= c <= g * b -> exp (- (g * b)) <= exp (- c) <= exp (- (l * b))).
  { intros c [C1 C2]. split; [destruct (Req_EM_T c (g * b)) as [e|e]; [rewrite e; lra|left; apply exp_increasing; lra]|].
    destruct (Req_EM_T c (l * b)) as [e|e]; [rewrite e; lra|left; apply exp_increasing; lra]. }
  pose proof (M a (conj L U)) as MA. assert (MB : l * b <= b <= g * b) by nra. apply M in MB.
  assert (W : exp (- (l * b)) - exp (- (g * b)) <= exp (- (1)) * ((g - l) / l)).
  { replace (exp (- (g * b))) with (exp (- (l * b)) * exp (- ((g - l) * b))) by (rewrite <- exp_plus; f_equal; ring).
    pose proof (exp_ineq1_le (- ((g - l) * b))) as I. pose proof (exp_pos (- (l * b))) as E. pose proof (peak (l * b)) as K.
    apply (Rle_trans _ (exp (- (l * b)) * ((g - l) * b))); [nra|].
    replace (exp (- (l * b)) * ((g - l) * b)) with ((l * b * exp (- (l * b))) * ((g - l) / l)) by (field; lra).
    apply Rmult_le_compat_r; [|exact K]. unfold Rdiv. apply Rmult_le_pos; [lra|]. left. apply Rinv_0_lt_compat. exact P. }
  unfold Rabs. destruct (Rcase_abs _); lra.
Qed.

Section Accurate.
  Variables (u v : R) (m : machine).
  Hypothesis Au : accurate u m.
  Hypothesis Av : exp_accurate v m.
  Let Hu : 0 <= u < 1 := proj1 Au.
  Let Hm : forall x, Rabs (rnd m x - x) <= u * Rabs x := proj2 Au.
  Notation near := (near u).
  Lemma near_abs z : near 1 (Rabs (rnd m z)) (Rabs z).
  Proof.
    split; [apply Rabs_pos|]. rewrite !pow_1. pose proof (Hm z) as H.
    pose proof (Rabs_triang (rnd m z - z) z) as T1. replace (rnd m z - z + z) with (rnd m z) in T1 by ring.
    pose proof (Rabs_triang (z - rnd m z) (rnd m z)) as T2. replace (z - rnd m z + rnd m z) with z in T2 by ring.
    rewrite (Rabs_minus_sym z) in T2. split; lra.
  Qed.
  Lemma near_neg n a b : near n (- a) b -> near (S n) (- rnd m a) b.
  Proof.
    intros N. pose proof (near_nonneg u Hu n _ b N) as PA. destruct N as [B [L U]]. split; [exact B|].
    pose proof (Hm a) as H. assert (Ha : Rabs a = - a) by (rewrite <- Rabs_Ropp; apply Rabs_pos_eq; exact PA). rewrite Ha in H.
    assert (H1 : (1 - u) * - a <= - rnd m a <= (1 + u) * - a).
    { revert H. unfold Rabs. destruct (Rcase_abs _); intros; lra. }
    cbn [pow]. split; nra.
  Qed.
  Lemma zero_near n : near n 0 0.
  Proof. split; [lra|]. lra. Qed.
  Lemma diffs_near x y i : near 1 (nth i (map Rabs (mdiffs m x y)) 0) (nth i (zipw (fun a b => Rabs (a - b)) x y) 0).
  Proof.
    revert y i. induction x as [|a x IH]; intros [|b y] [|i]; try apply zero_near; cbn [mdiffs zipw map nth].
    - apply near_abs.
    - apply IH.
  Qed.
  Lemma squares_near x y i : near 3 (nth i (map (fun d => rnd m (d * d)) (mdiffs m x y)) 0) (nth i (zipw (fun a b => (a - b) * (a - b)) x y) 0).
  Proof.
    revert y i. induction x as [|a x IH]; intros [|b y] [|i]; try apply zero_near; cbn [mdiffs zipw map nth].
    - apply (near_rnd u Hu m Hm 2). rewrite <- (Rabs_pos_eq (rnd m (a - b) * rnd m (a - b))) by (apply Rle_0_sqr).
      rewrite <- (Rabs_pos_eq ((a - b) * (a - b))) by (apply Rle_0_sqr). rewrite !Rabs_mult.
      apply (near_mult u Hu 1 1); apply near_abs.
    - apply IH.
  Qed.
  Section Points.
    Variables (x y : vec).
    Notation n := (length (zipw Rminus x y)).
    Notation h := (depth (plan m n)).
    Hypothesis P : sums_all m n.
    Lemma square_near : near (3 + h) (msquare_dist m x y) (square_dist x y).
    Proof.
      unfold msquare_dist, square_dist.
      assert (L : length (map (fun d => rnd m (d * d)) (mdiffs m x y)) = n) by (unfold mdiffs; rewrite map_length, !zipw_length_min; reflexivity).
      rewrite <- L. apply (near_msum u Hu m Hm); [unfold mdiffs; rewrite map_length, !zipw_length_min; reflexivity|rewrite L; exact P|].
      apply squares_near.
    Qed.
    Lemma manhattan_near : near (1 + h) (msum m (map Rabs (mdiffs m x y))) (sum (zipw (fun a b => Rabs (a - b)) x y)).
    Proof.
      assert (L : length (map Rabs (mdiffs m x y)) = n) by (unfold mdiffs; rewrite map_length, !zipw_length_min; reflexivity).
      rewrite <- L. apply (near_msum u Hu m Hm); [unfold mdiffs; rewrite map_length, !zipw_length_min; reflexivity|rewrite L; exact P|].
      apply diffs_near.
    Qed.
    Lemma chebyshev_near : near 1 (lmax (map Rabs (mdiffs m x y))) (lmax (zipw (fun a b => Rabs (a - b)) x y)).
    Proof. apply (near_max u Hu); [unfold mdiffs; rewrite map_length, !zipw_length_min; reflexivity|apply diffs_near]. Qed.
    Lemma inv_near sigma : 0 < sigma -> near 1 (rnd m (1 / sigma)) (1 / sigma).
    Proof. intros S. apply (near_rnd u Hu m Hm 0). apply near_refl. pose proof (Rinv_0_lt_compat sigma S). lra. Qed.
    Lemma scaled_near d sigma : offered d -> 0 < sigma ->
      (exists a b, mdist_sigma m d sigma x y = Ok (Fin a) /\ dist_sigma d sigma x y = Ok (Fin b) /\ near (2 * h + 8) a b) /\
      (exists a b, msquare_dist_sigma m d sigma x y = Ok (Fin a) /\ square_dist_sigma d sigma x y = Ok (Fin b) /\ near (2 * h + 8) a b).
    Proof.
      intros O Sg. pose proof (inv_near sigma Sg) as I.
      assert (Q : forall k a b, (k <= 1 + h)%nat -> near k a b ->
        (exists a' b', Ok (mover m sigma a) = Ok (Fin a') /\ Ok (over sigma b) = Ok (Fin b') /\ near (2 * h + 8) a' b') /\
        (exists a' b', Ok (mf m (fun r => r * r) (mover m sigma a)) = Ok (Fin a') /\ Ok (fl_sqr (over sigma b)) = Ok (Fin b') /\ near (2 * h + 8) a' b')).
      { intros k a b Hk N. unfold mover, over. destruct (Req_EM_T sigma 0) as [z|_]; [lra|].
        assert (N1 : near (S (1 + k)) (rnd m (rnd m (1 / sigma) * a)) (1 / sigma * b))
          by (apply (near_rnd u Hu m Hm), (near_mult u Hu); assumption).
        split; do 2 eexists; (split; [reflexivity|]); (split; [reflexivity|]).
        - apply (near_weak u Hu (S (1 + k))); [lia|exact N1].
        - apply (near_weak u Hu (S (S (1 + k) + S (1 + k)))); [lia|]. apply (near_rnd u Hu m Hm), (near_mult u Hu); exact N1. }
      destruct d; try contradiction; cbn [mdist_sigma msquare_dist_sigma mdist bind dist_sigma square_dist_sigma dist].
      - destruct (Req_EM_T sigma 0) as [z|_]; [lra|]. cbn [mf fl_sqrt].
        assert (N : near (S (S (1 + 1) + (3 + h))) (rnd m (rnd m (rnd m (1 / sigma) * rnd m (1 / sigma)) * msquare_dist m x y))
                      (1 / sigma * (1 / sigma) * square_dist x y)).
        { apply (near_rnd u Hu m Hm), (near_mult u Hu); [|exact square_near]. apply (near_rnd u Hu m Hm), (near_mult u Hu); exact I. }
        split; do 2 eexists; (split; [reflexivity|]); (split; [reflexivity|]).
        + apply (near_weak u Hu (S (S (S (1 + 1) + (3 + h))))); [lia|]. apply (near_rnd u Hu m Hm), (near_sqrt u Hu). exact N.
        + apply (near_weak u Hu (S (S (1 + 1) + (3 + h)))); [lia|exact N].
      - apply (Q 1%nat); [lia|exact chebyshev_near].
      - apply (Q (1 + h)%nat); [lia|exact manhattan_near].
    Qed.
    Lemma argument_near k a b c : 0 <= c -> near k a b -> near (k + 2) (- rnd m (a * rnd m (- c))) (b * c).
    Proof.
      intros C N. replace (k + 2)%nat with (S (k + 1)) by lia. apply near_neg.
      replace (- (a * rnd m (- c))) with (a * - rnd m (- c)) by ring. apply (near_mult u Hu); [exact N|].
      apply (near_neg 0). rewrite Ropp_involutive. apply near_refl. exact C.
    Qed.
    Lemma exponential_error b d sigma : offered d -> 0 < sigma ->
      exists r k, mkvalue m (Exponential b) d sigma x y = Ok (Fin r) /\ kvalue (Exponential b) d sigma x y = Ok (Fin k) /\
        Rabs (r - k) <= tolerance u v (2 * h + 10).
    Proof.
      intros O S. destruct (scaled_near d sigma O S) as [[a [b' [E1 [E2 N]]]] [a2 [b2 [E3 [E4 N2]]]]].
      assert (G : forall a b c, 0 <= c -> near (2 * h + 8) a b ->
        Rabs (mexp m (rnd m (a * rnd m (- c))) - exp (b * - c)) <= tolerance u v (2 * h + 10)).
      { intros p q c C Npq. pose proof (argument_near _ p q c C Npq) as NA. replace (2 * h + 8 + 2)%nat with (2 * h + 10)%nat in NA by lia.
        set (z := rnd m (p * rnd m (- c))) in *. pose proof (near_nonneg u Hu _ _ _ NA) as Z.
        pose proof (exp_near u _ _ _ Hu NA) as X. rewrite Ropp_involutive in X. replace (- (q * c)) with (q * - c) in X by ring.
        destruct Av as [V0 V]. specialize (V z). assert (Ez : exp z <= 1).
        { rewrite <- exp_0. destruct (Req_EM_T z 0) as [->|ne]; [lra|left; apply exp_increasing; lra]. }
        unfold tolerance. replace (mexp m z - exp (q * - c)) with ((mexp m z - exp z) + (exp z - exp (q * - c))) by ring.
        pose proof (Rabs_triang (mexp m z - exp z) (exp z - exp (q * - c))). pose proof (exp_pos z). nra. }
      unfold mkvalue, kvalue. destruct b; rewrite ?E1, ?E2, ?E3, ?E4; cbn [bind mprofile profile]; do 2 eexists;
        (split; [reflexivity|]); (split; [reflexivity|]); apply G; try assumption; [lra|apply sqrt_pos].
    Qed.
  End Points.
End Accurate.

(** ** Matrices *)
From Verif Require Import Psd.
Lemma sum_abs_le {A} (f : A -> R) l : Rabs (sum (map f l)) <= sum (map (fun a => Rabs (f a)) l).
Proof.
  induction l as [|a l IH]; cbn [map]; [cbn; rewrite Rabs_R0; lra|]. rewrite !sum_cons.
  pose proof (Rabs_triang (f a) (sum (map f l))). lra.
Qed.
Lemma sum_square_le l : sum l ^ 2 <= INR (length l) * sum (map (fun v => v ^ 2) l).
Proof.
  pose proof (dot_cauchy (map (fun _ => 1) l) l ltac:(now rewrite map_length)) as C.
  assert (D1 : dot (map (fun _ => 1) l) l = sum l).
  { clear C. induction l as [|a l IH]; [reflexivity|]. cbn [map]. rewrite dot_cons, sum_cons, IH. ring. }
  assert (D2 : dot (map (fun _ => 1) l) (map (fun _ => 1) l) = INR (length l)).
  { clear. induction l as [|a l IH]; [reflexivity|]. cbn [map length]. rewrite dot_cons, IH, S_INR. ring. }
  assert (D3 : dot l l = sum (map (fun v => v ^ 2) l)).
  { clear. induction l as [|a l IH]; [reflexivity|]. cbn [map]. rewrite dot_cons, sum_cons, IH. ring. }
  rewrite D1, D2, D3 in C. lra.
Qed.
Lemma perturbed_psd {X} (dom : X -> Prop) (f g : X -> X -> R) eps s c :
  psd_on dom f -> Forall dom s -> length c = length s -> (forall x y, In x s -> In y s -> Rabs (g x y - f x y) <= eps) ->
  - (INR (length s) * eps * dot c c) <= quadratic (matrix_of g s) c.
Proof.
  intros F D L E. pose proof (F s c D L) as N. rewrite quadratic_qsum in * by exact L. set (l := combine c s) in *.
  assert (Q : Rabs (qsum g l - qsum f l) <= eps * sum (map (fun p : R * X => Rabs (fst p)) l) ^ 2).
  { unfold qsum. rewrite <- sum_map_minus.
    apply (Rle_trans _ _ _ (sum_abs_le _ _)).
    replace (eps * sum (map (fun p : R * X => Rabs (fst p)) l) ^ 2)
      with (sum (map (fun p : R * X => eps * sum (map (fun p : R * X => Rabs (fst p)) l) * Rabs (fst p)) l)) by (rewrite sum_map_scal; ring).
    apply sum_le_map. intros [a x] Hp. cbn [fst snd]. rewrite <- sum_map_minus.
    apply (Rle_trans _ _ _ (sum_abs_le _ _)).
    replace (eps * sum (map (fun p : R * X => Rabs (fst p)) l) * Rabs a)
      with (sum (map (fun p : R * X => eps * Rabs a * Rabs (fst p)) l)) by (rewrite sum_map_scal; ring).
    apply sum_le_map. intros [b y] Hq. cbn [fst snd].
    replace (a * b * g x y - a * b * f x y) with (a * b * (g x y - f x y)) by ring. rewrite !Rabs_mult.
    specialize (E x y (in_combine_r _ _ _ _ Hp) (in_combine_r _ _ _ _ Hq)).
    pose proof (Rabs_pos a). pose proof (Rabs_pos b). pose proof (Rmult_le_pos _ _ H H0). nra. }
  assert (Le : 0 <= eps \/ s = []).
  { destruct s as [|x s']; [right; reflexivity|left]. apply (Rle_trans _ (Rabs (g x x - f x x))); [apply Rabs_pos|]. apply E; left; reflexivity. }
  assert (Hc : forall (c : vec) (s : list X), length c = length s -> map (fun p : R * X => Rabs (fst p)) (combine c s) = map Rabs c).
  { clear. induction c as [|a c IH]; intros [|x s] H; try discriminate; [reflexivity|]. cbn. f_equal. apply IH. now injection H. }
  unfold l in Q. rewrite (Hc c s L) in Q. fold l in Q.
  pose proof (sum_square_le (map Rabs c)) as S. rewrite map_length, map_map, L in S.
  assert (DD : sum (map (fun v => Rabs v ^ 2) c) = dot c c).
  { clear. induction c as [|a c IH]; [reflexivity|]. cbn [map]. rewrite dot_cons, sum_cons, IH. rewrite <- Rsqr_pow2, <- Rsqr_abs. unfold Rsqr. ring. }
  rewrite DD in S. destruct Le as [Le|e].
  - assert (eps * sum (map Rabs c) ^ 2 <= eps * (INR (length s) * dot c c)) by (apply Rmult_le_compat_l; assumption).
    revert Q. unfold Rabs at 1. destruct (Rcase_abs _); intros; lra.
  - subst s. destruct c; [|discriminate]. cbn. unfold qsum. cbn. lra.
Qed.

Lemma bernoulli_low u n : 0 <= u < 1 -> 1 - INR n * u <= (1 - u) ^ n.
Proof.
  intros H. induction n as [|n IH]; [cbn; lra|]. rewrite S_INR. cbn [pow]. pose proof (pos_INR n).
  assert ((1 - u) * (1 - INR n * u) <= (1 - u) * (1 - u) ^ n) by (apply Rmult_le_compat_l; lra). nra.
Qed.
Lemma tolerance_bound u v n : 0 <= u < 1 -> INR n * u <= 1 / 4 -> tolerance u v n <= v + 2 * INR n * u.
Proof.
  intros Hu H. unfold tolerance. pose proof (bernoulli_low u n Hu) as L. pose proof (low_pos u Hu n) as P.
  assert (G : (1 + u) ^ n * (1 - u) ^ n <= 1).
  { rewrite <- Rpow_mult_distr. apply pow_below. nra. }
  set (l := (1 - u) ^ n) in *. set (g := (1 + u) ^ n) in *. set (s := INR n * u) in *. replace (2 * INR n * u) with (2 * s) by (unfold s; ring).
  assert (S0 : 0 <= s) by (unfold s; apply Rmult_le_pos; [apply pos_INR|lra]).
  assert (E : exp (- (1)) <= 1 / 2).
  { pose proof (exp_ineq1_le 1) as I. rewrite exp_Ropp. pose proof (Rinv_le_contravar 2 (exp 1) ltac:(lra) ltac:(lra)). lra. }
  assert (Q : (g - l) / l <= 4 * s).
  { apply (Rmult_le_reg_r (l * l)); [nra|]. replace ((g - l) / l * (l * l)) with (g * l - l * l) by (field; lra).
    assert (LL : (1 - s) * (1 - s) <= l * l) by (apply Rmult_le_compat; lra). nra. }
  pose proof (exp_pos (- (1))). assert (0 <= (g - l) / l).
  { assert (l <= 1) by (apply pow_below; lra). assert (1 <= g) by (apply pow_above; lra).
    unfold Rdiv. apply Rmult_le_pos; [lra|]. left. apply Rinv_0_lt_compat. exact P. }
  nra.
Qed.
