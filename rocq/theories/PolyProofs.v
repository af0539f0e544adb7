(** The polynomial kernel: proofs. *)
From Coq Require Import Arith Factorial Binomial FinFun.
From Verif Require Import Base RVec RVecProofs KernelR KernelRSpec Psd Poly.
Open Scope R_scope.

(** * Exponents *)

Lemma multichoose_S n k : multichoose (S (S n)) (S k) =
  (map (cons O) (multichoose (S n) (S k)) ++ map bump (multichoose (S (S n)) k))%list.
Proof. reflexivity. Qed.
Lemma multichoose_0 n : multichoose n 0 = [repeat O n].
Proof. destruct n; reflexivity. Qed.
Lemma multichoose_1 k : multichoose 1 k = [[k]].
Proof. destruct k; reflexivity. Qed.

Lemma multichoose_split n k :
  multichoose (S (S n)) k = flat_map (fun j => map (cons j) (multichoose (S n) (k - j))) (seq 0 (S k)).
Proof.
  induction k as [|k IH].
  - rewrite multichoose_0. cbn [seq flat_map Nat.sub]. rewrite multichoose_0. reflexivity.
  - rewrite multichoose_S, IH. change (seq 0 (S (S k))) with (O :: seq 1 (S k)). cbn [flat_map]. f_equal.
    rewrite <- seq_shift, !flat_map_concat_map, concat_map, !map_map. f_equal. apply map_ext. intros j.
    rewrite map_map. reflexivity.
Qed.

Lemma multichoose_sum n k p : In p (multichoose (S n) k) -> length p = S n /\ list_sum p = k.
Proof.
  revert k p. induction n as [|n IH]; intros k p Hp.
  - rewrite multichoose_1 in Hp. destruct Hp as [<-|[]]. split; [reflexivity|]. cbn. lia.
  - rewrite multichoose_split in Hp. apply in_flat_map in Hp. destruct Hp as (j & Hj & Hp). apply in_seq in Hj.
    apply in_map_iff in Hp. destruct Hp as (q & <- & Hq). destruct (IH _ _ Hq) as [L S]. split; [cbn; now rewrite L|].
    change (j + list_sum q = k)%nat. lia.
Qed.
Lemma multichoose_complete n k p : length p = S n -> list_sum p = k -> In p (multichoose (S n) k).
Proof.
  revert k p. induction n as [|n IH]; intros k p L S.
  - rewrite multichoose_1. destruct p as [|a [|b p]]; try discriminate L. left. cbn in S. f_equal. lia.
  - rewrite multichoose_split. destruct p as [|a p]; [discriminate L|]. injection L as L.
    change (a + list_sum p = k)%nat in S. apply in_flat_map. exists a. split; [apply in_seq; lia|].
    apply in_map. apply IH; [exact L|lia].
Qed.
Lemma multichoose_NoDup n k : NoDup (multichoose (S n) k).
Proof.
  revert k. induction n as [|n IH]; intros k.
  - rewrite multichoose_1. constructor; [intros []|constructor].
  - rewrite multichoose_split. generalize (seq_NoDup (S k) 0). generalize (seq 0 (S k)) as js.
    induction js as [|j js IHj]; intros Hn; [constructor|]. inversion Hn as [|? ? Hj Hjs]; subst. cbn [flat_map].
    assert (A : NoDup (map (cons j) (multichoose (S n) (k - j)))).
    { apply Injective_map_NoDup; [|apply IH]. intros p q E. now injection E. }
    assert (B : forall l m : list (list nat), NoDup l -> NoDup m -> (forall p, In p l -> ~ In p m) -> NoDup (l ++ m)%list).
    { clear. induction l as [|a l IH]; intros m Hl Hm D; [exact Hm|]. inversion Hl as [|? ? Ha Hl']; subst. cbn. constructor.
      - intros I. apply in_app_or in I. destruct I as [I|I]; [exact (Ha I)|exact (D a (or_introl eq_refl) I)].
      - apply IH; [exact Hl'|exact Hm|]. intros p Hp. apply D. now right. }
    apply B; [exact A|exact (IHj Hjs)|]. intros p Hp Hq. apply in_map_iff in Hp. destruct Hp as (q & <- & _).
    apply in_flat_map in Hq. destruct Hq as (i & Hi & Hq). apply in_map_iff in Hq. destruct Hq as (r & E & _).
    injection E as -> _. exact (Hj Hi).
Qed.

(** * Number of features *)

Lemma comb_0 n : comb n 0 = 1%nat.
Proof. destruct n; reflexivity. Qed.
Lemma comb_big n k : (n < k)%nat -> comb n k = 0%nat.
Proof.
  revert k. induction n as [|n IH]; intros [|k] H; try lia; [reflexivity|]. cbn [comb]. rewrite !IH by lia. reflexivity.
Qed.
Lemma comb_diag n : comb n n = 1%nat.
Proof. induction n as [|n IH]; [reflexivity|]. cbn [comb]. rewrite IH, comb_big by lia. reflexivity. Qed.
Lemma comb_fact n k : (comb (n + k) k * fact n * fact k = fact (n + k))%nat.
Proof.
  revert k. induction n as [|n IHn]; intros k.
  - cbn [plus]. rewrite comb_diag. cbn [fact]. lia.
  - induction k as [|k IHk].
    + rewrite comb_0, Nat.add_0_r. change (fact 0) with 1%nat. lia.
    + replace (S n + S k)%nat with (S (n + S k)) by lia. cbn [comb].
      replace (comb (n + S k) k) with (comb (S n + k) k) by (f_equal; lia).
      assert (E1 : (comb (S n + k) k * fact (S n) * fact (S k) = S k * fact (n + S k))%nat).
      { replace (n + S k)%nat with (S n + k)%nat by lia. rewrite <- IHk. change (fact (S k)) with (S k * fact k)%nat. ring. }
      assert (E2 : (comb (n + S k) (S k) * fact (S n) * fact (S k) = S n * fact (n + S k))%nat).
      { rewrite <- IHn. change (fact (S n)) with (S n * fact n)%nat. ring. }
      rewrite Nat.mul_add_distr_r, Nat.mul_add_distr_r, E1, E2.
      change (fact (S (n + S k))) with (S (n + S k) * fact (n + S k))%nat. ring.
Qed.
Lemma multichoose_length n k : length (multichoose (S n) k) = comb (n + k) k.
Proof.
  revert k. induction n as [|n IHn]; intros k.
  - rewrite multichoose_1. cbn [plus]. now rewrite comb_diag.
  - induction k as [|k IHk]; [now rewrite multichoose_0, comb_0|].
    rewrite multichoose_S, app_length, !map_length, IHn, IHk.
    replace (S n + S k)%nat with (S (n + S k)) by lia. cbn [comb].
    replace (n + S k)%nat with (S n + k)%nat by lia. lia.
Qed.

(** * The multinomial theorem *)

Lemma fact_prod_pos p : 0 < fact_prod p.
Proof. induction p as [|a p IH]; cbn; [lra|]. apply Rmult_lt_0_compat; [apply INR_fact_lt_0|exact IH]. Qed.

Lemma sum_flat_map {A} (f : A -> vec) l : sum (flat_map f l) = sum (map (fun a => sum (f a)) l).
Proof. induction l as [|a l IH]; [reflexivity|]. cbn [flat_map map]. now rewrite sum_app, sum_cons, IH. Qed.
Lemma map_flat_map {A B C} (g : B -> C) (f : A -> list B) l : map g (flat_map f l) = flat_map (fun a => map g (f a)) l.
Proof. induction l as [|a l IH]; [reflexivity|]. cbn [flat_map]. now rewrite map_app, IH. Qed.
Lemma sum_f_R0_seq f n : sum_f_R0 f n = sum (map f (seq 0 (S n))).
Proof.
  induction n as [|n IH]; [cbn; ring|]. change (sum_f_R0 f (S n)) with (sum_f_R0 f n + f (S n)).
  rewrite IH, (seq_S (S n)), map_app, sum_app. cbn [map sum fold_right plus]. ring.
Qed.

Definition term (z : vec) (p : list nat) : R := monomial z p / fact_prod p.

Lemma multinomial z k : z <> [] -> sum (map (term z) (multichoose (length z) k)) = sum z ^ k / INR (fact k).
Proof.
  destruct z as [|a z]; [contradiction|]. intros _. revert a k. induction z as [|b z IH]; intros a k.
  - cbn [length]. rewrite multichoose_1. unfold term. cbn [map monomial fact_prod fold_right sum].
    rewrite !Rmult_1_r, !Rplus_0_r. reflexivity.
  - cbn [length]. rewrite multichoose_split, map_flat_map, sum_flat_map.
    transitivity (sum (map (fun j => a ^ j / INR (fact j) * (sum (b :: z) ^ (k - j) / INR (fact (k - j)))) (seq 0 (S k)))).
    + apply sum_map_ext. intros j _. rewrite <- (IH b (k - j)%nat), <- sum_map_scal, map_map. apply sum_map_ext.
      intros p _. unfold term. cbn [monomial fact_prod fold_right]. fold (fact_prod p).
      pose proof (fact_prod_pos p). pose proof (INR_fact_lt_0 j). field. split; lra.
    + rewrite (sum_cons a (b :: z)), binomial, <- sum_f_R0_seq. unfold Rdiv at 3. rewrite Rmult_comm, scal_sum.
      apply sum_eq. intros j Hj. unfold Binomial.C. pose proof (INR_fact_lt_0 j). pose proof (INR_fact_lt_0 (k - j)).
      pose proof (INR_fact_lt_0 k). field. split; [|split]; lra.
Qed.

Lemma monomial_app x y p q : length x = length p -> monomial (x ++ y) (p ++ q) = monomial x p * monomial y q.
Proof.
  revert p. induction x as [|a x IH]; intros [|e p] H; try discriminate H; cbn [app monomial]; [ring|].
  rewrite IH by (now injection H). ring.
Qed.
Lemma monomial_zipw x y p : length x = length y -> length x = length p ->
  monomial (zipw Rmult x y) p = monomial x p * monomial y p.
Proof.
  revert y p. induction x as [|a x IH]; intros [|b y] [|e p] H1 H2; try discriminate H1; try discriminate H2; cbn [zipw monomial]; [ring|].
  rewrite IH, Rpow_mult_distr by (congruence || (injection H1; injection H2; congruence)). ring.
Qed.

Lemma feature_product k beta x y p : 0 <= beta -> length x = length y -> length p = S (length x) ->
  feature k beta x p * feature k beta y p = INR (fact k) * term (zipw Rmult x y ++ [beta]) p.
Proof.
  intros Hb Hl Hp. unfold feature, term.
  assert (Hne : p <> []) by (intros ->; discriminate Hp).
  pose proof (app_removelast_last O Hne) as E.
  assert (Hr : length x = length (removelast p)).
  { apply (f_equal (@length nat)) in E. rewrite app_length in E. cbn in E. lia. }
  assert (Hz : length (zipw Rmult x y) = length x).
  { clear - Hl. revert y Hl. induction x as [|a x IH]; intros [|b y] H; try discriminate H; [reflexivity|].
    cbn. now rewrite IH by (now injection H). }
  assert (M : monomial (zipw Rmult x y ++ [beta]) p =
    monomial x (removelast p) * monomial y (removelast p) * (sqrt beta ^ last p O * sqrt beta ^ last p O)).
  { rewrite E at 1. rewrite monomial_app, monomial_zipw by congruence. cbn [monomial].
    rewrite <- Rpow_mult_distr, sqrt_sqrt by exact Hb. ring. }
  rewrite M. pose proof (fact_prod_pos p) as P. pose proof (INR_fact_lt_0 k) as Q.
  pose proof (sqrt_sqrt _ (Rlt_le _ _ P)) as SP. pose proof (sqrt_sqrt _ (Rlt_le _ _ Q)) as SQ.
  pose proof (sqrt_lt_R0 _ P) as SPp.
  rewrite <- SP at 3. rewrite <- SQ at 3. field. lra.
Qed.

Lemma features_dot k beta x y : 0 <= beta -> length x = length y ->
  dot (map (feature k beta x) (multichoose (length x + 1) k)) (map (feature k beta y) (multichoose (length x + 1) k))
  = poly k beta x y.
Proof.
  intros Hb Hl. replace (length x + 1)%nat with (S (length x)) by lia.
  transitivity (sum (map (fun p => INR (fact k) * term (zipw Rmult x y ++ [beta]) p) (multichoose (S (length x)) k))).
  - assert (G : forall l, dot (map (feature k beta x) l) (map (feature k beta y) l) =
       sum (map (fun p => feature k beta x p * feature k beta y p) l)).
    { induction l as [|p l IH]; [reflexivity|]. cbn [map]. now rewrite dot_cons, sum_cons, IH. }
    rewrite G. apply sum_map_ext. intros p Hp. apply feature_product; [exact Hb|exact Hl|]. now apply (multichoose_sum _ k).
  - rewrite sum_map_scal.
    assert (Hz : length (zipw Rmult x y ++ [beta])%list = S (length x)).
    { rewrite app_length. cbn. enough (length (zipw Rmult x y) = length x) by lia.
      clear - Hl. revert y Hl. induction x as [|a x IH]; intros [|b y] H; try discriminate H; [reflexivity|].
      cbn. now rewrite IH by (now injection H). }
    rewrite <- Hz, multinomial by (destruct (zipw Rmult x y); discriminate).
    rewrite sum_app. change (sum [beta]) with (beta + 0). rewrite Rplus_0_r.
    change (sum (zipw Rmult x y)) with (dot x y). unfold poly. pose proof (INR_fact_lt_0 k). field. lra.
Qed.

Theorem poly_explicit_gram d k beta x y : (1 <= k)%nat -> 0 <= beta -> rect d x -> rect d y ->
  exists px py, poly_explicit d k beta x = Ok px /\ poly_explicit d k beta y = Ok py /\
    gram px py = poly_implicit k beta x y.
Proof.
  intros Hk Hb Hx Hy. destruct k as [|k]; [lia|]. unfold poly_explicit.
  destruct (Rlt_dec beta 0) as [N|_]; [exfalso; lra|]. eexists. eexists. split; [reflexivity|]. split; [reflexivity|].
  unfold gram, poly_implicit. rewrite map_map. apply map_ext_in. intros a Ha. rewrite map_map. apply map_ext_in. intros b Hb'.
  pose proof (proj1 (Forall_forall _ _) Hx a Ha) as La. pose proof (proj1 (Forall_forall _ _) Hy b Hb') as Lb. cbn in La, Lb.
  rewrite <- La. apply features_dot; [exact Hb|congruence].
Qed.
Theorem poly_degree_zero d beta x : 0 <= beta -> poly_explicit d 0 beta x = Err ETypeError.
Proof. intros Hb. unfold poly_explicit. destruct (Rlt_dec beta 0) as [N|_]; [exfalso; lra|reflexivity]. Qed.

(** The announced dimension. *)
Theorem dim_feature_right d k beta x px : poly_explicit d k beta x = Ok px -> rect (dim_feature k d) px.
Proof.
  unfold poly_explicit. destruct (Rlt_dec beta 0); [discriminate|]. destruct k as [|k]; [discriminate|].
  intros E. injection E as <-. apply Forall_forall. intros r Hr. apply in_map_iff in Hr. destruct Hr as (a & <- & _).
  rewrite map_length. replace (d + 1)%nat with (S d) by lia. apply multichoose_length.
Qed.
Theorem dim_feature_value d k : (dim_feature k d * fact d * fact k = fact (d + k))%nat.
Proof. apply comb_fact. Qed.

(** * [k] *)

Theorem poly_k_first_only d k beta sample x y y' e :
  poly_k d k beta sample x y e = poly_k d k beta sample x y' e.
Proof. reflexivity. Qed.
Theorem poly_k_value d k beta sample x y : (1 <= k)%nat -> 0 <= beta -> rect d sample ->
  (forall m, x = Some m -> rect d m) ->
  forall e, poly_k d k beta sample x y e =
    Ok (let m := match x with Some m => m | None => sample end in poly_implicit k beta m m).
Proof.
  intros Hk Hb Hs Hx e. unfold poly_k.
  assert (Hm : rect d (match x with Some m => m | None => sample end)) by (destruct x as [m|]; [now apply Hx|exact Hs]).
  destruct (poly_explicit_gram d k beta _ _ Hk Hb Hm Hm) as (px & py & E1 & E2 & G).
  rewrite E1 in E2. injection E2 as <-.
  destruct (match e with Some e => e | None => _ end); [|reflexivity]. rewrite E1. cbn [bind]. now rewrite G.
Qed.
Theorem poly_k_negative_offset d k beta sample : beta < 0 ->
  let n := length sample in
  (dim_feature k d * (n + n) < n * n)%nat -> poly_k d k beta sample None None None = Err EValueError.
Proof.
  intros Hb n Hn. unfold poly_k. fold n. destruct (Nat.ltb_spec (dim_feature k d * (n + n)) (n * n)) as [_|N]; [|lia].
  unfold poly_explicit. destruct (Rlt_dec beta 0) as [_|N]; [reflexivity|contradiction].
Qed.

(** * Positive semi-definiteness *)

Theorem poly_psd d k beta : 0 <= beta -> psd_on (fun x => length x = d) (poly k beta).
Proof.
  intros Hb. induction k as [|k IH]; [exact (psd_one _)|].
  apply (psd_ext _ (fun x y => dot x y * poly k beta x y + beta * poly k beta x y)).
  - intros x y _ _. unfold poly. cbn [pow]. ring.
  - apply psd_plus; [now apply (psd_dot _ d); [auto|]|]. now apply psd_scale.
Qed.
