(** Evaluations point by point: proofs for trees of transforms and for the methods of the pre-images. *)
From Verif Require Import Base Cache CacheSpec Beautify TransformTree TransformSpec TransformProofs
  RVec RVecProofs TransformR TransformRSpec TransformRProofs TransformRTree BatchSpec.
Open Scope R_scope.

Lemma zipw_maps {A B C E : Type} (f : B -> C -> E) (u : A -> B) (v : A -> C) l :
  zipw f (map u l) (map v l) = map (fun a => f (u a) (v a)) l.
Proof. induction l as [|a l IH]; [reflexivity|]. cbn [map zipw]. now rewrite IH. Qed.
Lemma diag_table {P : Type} (g : P -> P -> R) x : diag (table g x x) = map (fun a => g a a) x.
Proof.
  unfold diag, table. rewrite map_length. destruct x as [|a0 x]; [reflexivity|].
  remember (a0 :: x) as l eqn:El. transitivity (map (fun i => g (nth i l a0) (nth i l a0)) (seq 0 (List.length l))).
  - apply map_ext_in. intros i Hi. apply in_seq in Hi.
    rewrite (nth_indep _ [] (map (g a0) l)) by (rewrite map_length; lia).
    rewrite (map_nth (fun a => map (g a) l)).
    rewrite (nth_indep _ 0 (g (nth i l a0) a0)) by (rewrite map_length; lia).
    now rewrite (map_nth (g (nth i l a0))).
  - clear El. change (fun i : nat => g (nth i l a0) (nth i l a0)) with (fun i : nat => (fun a => g a a) (nth i l a0)).
    rewrite <- (map_map (fun i => nth i l a0) (fun a => g a a)). f_equal.
    induction l as [|b l IH]; [reflexivity|]. cbn [List.length seq map nth]. f_equal.
    rewrite <- seq_shift, map_map. exact IH.
Qed.
Lemma scale_table {P : Type} (g : P -> P -> R) (u : P -> R) x y :
  scale2 (table g x y) (map u x) (map u y) = table (fun a b => g a b / clamp (u a * u b)) x y.
Proof. unfold scale2, table. rewrite zipw_maps. apply map_ext. intros a. now rewrite zipw_maps. Qed.
Lemma center_table {P : Type} (g : P -> P -> R) (u : P -> R) x y tot :
  center2 (table g x y) (map u x) (map u y) tot = table (fun a b => g a b - u a - u b + tot) x y.
Proof. unfold center2, table. rewrite zipw_maps. apply map_ext. intros a. now rewrite zipw_maps. Qed.
Lemma some_negative_iff v : some_negative v = false <-> Forall (fun x => 0 <= x) v.
Proof.
  unfold some_negative. induction v as [|x v IH]; cbn [existsb]; [split; [constructor|reflexivity]|].
  destruct (Rlt_dec x 0) as [H|H]; cbn [orb]; split.
  - discriminate.
  - intros F. inversion F as [|? ? Hx Fv]. lra.
  - intros E. constructor; [lra|now apply IH].
  - intros F. inversion F as [|? ? Hx Fv]. now apply IH.
Qed.

Section Trees.
  Context {P : Type}.
  Variables (f : P -> vec) (k : P -> P -> R) (sample : list P).
  Notation enum := (explicit_numerics (map f) (table k) sample).
  Notation knum := (implicit_numerics (map f) (table k) sample).

  Lemma chain_sample_ok p : exists v, chain_sample enum p = Ok v.
  Proof.
    induction p as [|c p (v & IH)]; [eexists; reflexivity|]. cbn [chain_sample]. rewrite IH. eexists. reflexivity.
  Qed.

  Lemma eapp_rows c s : c <> Sphere ->
    (exists u, forall m, real_eapp c (VMat m) s = VMat (map u m)) \/ (forall m, real_eapp c (VMat m) s = VNaN).
  Proof.
    intros Hc. destruct c; try (now elim Hc); destruct s as [n|t|t|t tot|];
      try (right; intros m; reflexivity); left; eexists; intros m; reflexivity.
  Qed.
  Lemma chain_other c p v x : c <> Sphere -> chain_sample enum p = Ok v ->
    chain_oos enum (c :: p) x =
    bind (chain_oos enum p x) (fun o => Ok (real_eapp c o (real_estat c (parent_is_min p) v))).
  Proof.
    intros Hc Ev. cbn [chain_oos]. destruct (chain_oos enum p x) as [o|e]; [|reflexivity]. cbn [bind].
    unfold chain_stat. rewrite Ev. destruct c; try reflexivity. now elim Hc.
  Qed.

  Theorem explicit_points p :
    (exists g, forall x, chain_oos enum p x = Ok (VMat (map g x))) \/ (forall x, chain_oos enum p x = Ok VNaN).
  Proof.
    induction p as [|c p IH].
    - left. exists f. intros x. reflexivity.
    - destruct (chain_sample_ok p) as (v & Ev).
      assert (D : c = Sphere \/ c <> Sphere) by (destruct c; (now left) || (right; discriminate)).
      destruct D as [->|Hc].
      + destruct IH as [(g & IH)|IH].
        * left. exists (fun a => map (fun v => v / clamp (norm (g a))) (g a)). intros x.
          cbn [chain_oos]. rewrite IH. cbn. unfold div_norms. rewrite map_map, zipw_maps. reflexivity.
        * right. intros x. cbn [chain_oos]. rewrite IH. reflexivity.
      + destruct IH as [(g & IH)|IH].
        * destruct (eapp_rows c (real_estat c (parent_is_min p) v) Hc) as [(u & U)|U].
          -- left. exists (fun a => u (g a)). intros x. rewrite (chain_other c p v x Hc Ev), IH. cbn [bind].
             now rewrite U, map_map.
          -- right. intros x. rewrite (chain_other c p v x Hc Ev), IH. cbn [bind]. now rewrite U.
        * right. intros x. rewrite (chain_other c p v x Hc Ev), IH. cbn [bind]. destruct c; reflexivity.
  Qed.

  (** ** Kernel matrices *)
  Definition entries (G : Prop) (ok : P -> Prop) (g : P -> P -> R) (K : list P -> list P -> result val) : Prop :=
    (forall x y m, K x y = Ok (VMat m) -> G /\ Forall ok x /\ Forall ok y) /\
    (forall x y, G -> Forall ok x -> Forall ok y -> K x y = Ok (VMat (table g x y))).
  Definition rows_of (G : Prop) (ok : P -> Prop) (h : P -> vec) (K : list P -> result val) : Prop :=
    (forall x m, K x = Ok (VMat m) -> G /\ Forall ok x) /\
    (forall x, G -> Forall ok x -> K x = Ok (VMat (map h x))).

  Lemma root_ok v t : real_sqrt (real_diag v) = VCol t -> exists m, v = VMat m /\ Forall (fun x => 0 <= x) (diag m).
  Proof.
    destruct v as [m| | | |]; try discriminate. cbn. destruct (some_negative (diag m)) eqn:E; [discriminate|].
    intros _. exists m. split; [reflexivity|]. now apply some_negative_iff.
  Qed.
  Lemma root_table (g : P -> P -> R) x : Forall (fun a => 0 <= g a a) x ->
    real_sqrt (real_diag (VMat (table g x x))) = VCol (map (fun a => sqrt (g a a)) x).
  Proof.
    intros F. cbn [real_diag real_sqrt]. rewrite diag_table.
    assert (E : some_negative (map (fun a => g a a) x) = false) by (apply some_negative_iff, Forall_map; exact F).
    now rewrite E, map_map.
  Qed.
  Lemma sphere_mat o tx ty m : real_iapp Sphere o tx ty = VMat m -> exists n a b, o = VMat n /\ tx = VCol a /\ ty = VCol b.
  Proof. destruct o, tx, ty; try discriminate. intros _. do 3 eexists. repeat split. Qed.
  Lemma center_mat o tx ty m : real_iapp MeanCenter o tx ty = VMat m ->
    exists n a t b t', o = VMat n /\ tx = VMeans a t /\ ty = VMeans b t'.
  Proof. destruct o, tx, ty; try discriminate. intros _. do 5 eexists. repeat split. Qed.

  Theorem implicit_points p :
    (exists G ok g, entries G ok g (fun x y => kchain knum p x (Some y))) /\
    (exists G ok h, rows_of G ok h (fun x => kchain knum p x None)).
  Proof.
    induction p as [|c p [(G & ok & g & A1 & A2) (G' & ok' & h & B1 & B2)]].
    - split.
      + exists True, (fun _ => True), k. split; [|intros; reflexivity].
        intros x y m _. split; [exact I|]. split; apply Forall_forall; intros; exact I.
      + exists True, (fun _ => True), (fun a => map (k a) sample). split; [|intros; reflexivity].
        intros x m _. split; [exact I|]. apply Forall_forall; intros; exact I.
    - assert (D : c = Sphere \/ c = MeanCenter \/ (c <> Sphere /\ c <> MeanCenter))
        by (destruct c; auto; right; right; split; discriminate).
      destruct D as [->|[->|[C1 C2]]].
      + (* sphere *)
        assert (S1 : forall x t, bind (kchain knum p x (Some x)) (fun o => Ok (isqrt knum (idiag knum o))) = Ok (VCol t) ->
                 G /\ Forall (fun a => ok a /\ 0 <= g a a) x).
        { intros x t. destruct (kchain knum p x (Some x)) as [v|e] eqn:E; [|discriminate]. cbn [bind]. intros H.
          assert (H' : real_sqrt (real_diag v) = VCol t) by (injection H as H; exact H).
          destruct (root_ok v t H') as (m & -> & F). destruct (A1 x x m E) as (HG & Fx & _). split; [exact HG|].
          pose proof (A2 x x HG Fx Fx) as E2. cbv beta in E2. rewrite E in E2. injection E2 as E2. rewrite E2, diag_table in F.
          rewrite Forall_map in F. rewrite Forall_forall in *. intros a Ha. split; [now apply Fx|now apply F]. }
        assert (S2 : forall x, G -> Forall (fun a => ok a /\ 0 <= g a a) x ->
                 bind (kchain knum p x (Some x)) (fun o => Ok (isqrt knum (idiag knum o))) = Ok (VCol (map (fun a => sqrt (g a a)) x))).
        { intros x HG F. assert (Fx : Forall ok x) by (eapply Forall_impl; [|exact F]; cbv beta; tauto).
          pose proof (A2 x x HG Fx Fx) as E2. cbv beta in E2. rewrite E2. cbn [bind]. f_equal.
          apply root_table. eapply Forall_impl; [|exact F]; cbv beta; tauto. }
        split.
        * exists G, (fun a => ok a /\ 0 <= g a a), (fun a b => g a b / clamp (sqrt (g a a) * sqrt (g b b))). split.
          -- intros x y m. cbn [kchain kpoint_stat].
             destruct (kchain knum p x (Some y)) as [o|e] eqn:E; [|discriminate]. cbn [bind].
             destruct (bind (kchain knum p x (Some x)) _) as [tx|e] eqn:Ex; [|discriminate]. cbn [bind].
             destruct (bind (kchain knum p y (Some y)) _) as [ty|e] eqn:Ey; [|discriminate]. cbn [bind].
             intros H. assert (H' : real_iapp Sphere o tx ty = VMat m) by (injection H as H; exact H).
             destruct (sphere_mat o tx ty m H') as (n & a & b & -> & -> & ->).
             destruct (S1 x a Ex) as (HG & Fx). destruct (S1 y b Ey) as (_ & Fy). auto.
          -- intros x y HG Fx Fy. cbn [kchain kpoint_stat].
             assert (Ox : Forall ok x) by (eapply Forall_impl; [|exact Fx]; cbv beta; tauto).
             assert (Oy : Forall ok y) by (eapply Forall_impl; [|exact Fy]; cbv beta; tauto).
             pose proof (A2 x y HG Ox Oy) as E2. cbv beta in E2. rewrite E2. cbn [bind].
             rewrite (S2 x HG Fx). cbn [bind]. rewrite (S2 y HG Fy). cbn [bind]. f_equal.
             cbn [iapp implicit_numerics real_iapp]. f_equal. apply (scale_table g (fun a => sqrt (g a a))).
        * destruct (kchain_stat knum Sphere p) as [ts|e] eqn:Es;
            [destruct ts as [n|b|b|b t|]|].
          3: { exists (G /\ G'), (fun a => ok' a /\ ok a /\ 0 <= g a a),
                 (fun a => zipw (fun v y => v / clamp (sqrt (g a a) * y)) (h a) b). split.
               - intros x m. cbn [kchain kpoint_stat].
                 destruct (kchain knum p x None) as [o|e] eqn:E; [|discriminate]. cbn [bind].
                 destruct (bind (kchain knum p x (Some x)) _) as [tx|e] eqn:Ex; [|discriminate]. cbn [bind].
                 rewrite Es. cbn [bind]. intros H.
                 assert (H' : real_iapp Sphere o tx (VCol b) = VMat m) by (injection H as H; exact H).
                 destruct (sphere_mat o tx _ m H') as (n & a & b' & -> & -> & _).
                 destruct (S1 x a Ex) as (HG & Fx). destruct (B1 x n E) as (HG' & Fx'). split; [auto|].
                 rewrite Forall_forall in *. intros z Hz. split; [now apply Fx'|now apply Fx].
               - intros x (HG & HG') F. cbn [kchain kpoint_stat].
                 assert (Ox : Forall ok' x) by (eapply Forall_impl; [|exact F]; cbv beta; tauto).
                 pose proof (B2 x HG' Ox) as E2. cbv beta in E2. rewrite E2. cbn [bind].
                 rewrite (S2 x HG) by (eapply Forall_impl; [|exact F]; cbv beta; tauto). cbn [bind]. rewrite Es. cbn [bind]. f_equal.
                 cbn [iapp implicit_numerics real_iapp]. f_equal. unfold scale2. now rewrite zipw_maps. }
          all: exists False, (fun _ => True), h; (split; [|intros x []]); intros x m; cbn [kchain kpoint_stat];
            (destruct (kchain knum p x None) as [o|e0]; [|discriminate]); cbn [bind];
            (destruct (bind (kchain knum p x (Some x)) _) as [tx|e1]; [|discriminate]); cbn [bind]; rewrite Es; cbn [bind];
            try discriminate; destruct o, tx; discriminate.
      + (* centering *)
        destruct (kchain_stat knum MeanCenter p) as [ts|e] eqn:Es; [destruct ts as [n|b|b|b t|]|].
        4: { assert (S1 : forall x v, bind (kchain knum p x None) (fun o => bind (kchain_stat knum MeanCenter p)
                       (fun t0 => Ok (imean_oos knum o t0))) = Ok v -> forall a t0, v = VMeans a t0 -> G' /\ Forall ok' x).
             { intros x v. rewrite Es. destruct (kchain knum p x None) as [o|e] eqn:E; [|discriminate]. cbn [bind].
               intros H a t0 ->. destruct o as [n| | | |]; try discriminate. exact (B1 x n E). }
             assert (S2 : forall x, G' -> Forall ok' x -> bind (kchain knum p x None) (fun o => bind (kchain_stat knum MeanCenter p)
                       (fun t0 => Ok (imean_oos knum o t0))) = Ok (VMeans (map (fun a => mean (h a)) x) t)).
             { intros x HG F. rewrite Es. pose proof (B2 x HG F) as E2. cbv beta in E2. rewrite E2. cbn. now rewrite map_map. }
             split.
             - exists (G /\ G'), (fun a => ok a /\ ok' a), (fun a b => g a b - mean (h a) - mean (h b) + t). split.
               + intros x y m. cbn [kchain kpoint_stat].
                 destruct (bind (kchain knum p x None) _) as [tx|e] eqn:Ex; [|discriminate]. cbn [bind].
                 destruct (bind (kchain knum p y None) _) as [ty|e] eqn:Ey; [|discriminate]. cbn [bind].
                 destruct (kchain knum p x (Some y)) as [o|e] eqn:E; [|discriminate]. cbn [bind]. intros H.
                 assert (H' : real_iapp MeanCenter o tx ty = VMat m) by (injection H as H; exact H).
                 destruct (center_mat o tx ty m H') as (n & a1 & t1 & a2 & t2 & -> & -> & ->).
                 destruct (S1 x _ Ex a1 t1 eq_refl) as (HG' & Fx). destruct (S1 y _ Ey a2 t2 eq_refl) as (_ & Fy).
                 destruct (A1 x y n E) as (HG & Ox & Oy). split; [auto|].
                 rewrite !Forall_forall in *. split; intros z Hz; split; auto.
               + intros x y (HG & HG') Fx Fy. cbn [kchain kpoint_stat].
                 rewrite (S2 x HG') by (eapply Forall_impl; [|exact Fx]; cbv beta; tauto). cbn [bind].
                 rewrite (S2 y HG') by (eapply Forall_impl; [|exact Fy]; cbv beta; tauto). cbn [bind].
                 assert (Ox : Forall ok x) by (eapply Forall_impl; [|exact Fx]; cbv beta; tauto).
                 assert (Oy : Forall ok y) by (eapply Forall_impl; [|exact Fy]; cbv beta; tauto).
                 pose proof (A2 x y HG Ox Oy) as E2. cbv beta in E2. rewrite E2. cbn [bind]. f_equal.
                 cbn [iapp implicit_numerics real_iapp]. f_equal. apply (center_table g (fun a => mean (h a))).
             - exists G', ok', (fun a => zipw (fun v y => v - mean (h a) - y + t) (h a) b). split.
               + intros x m. cbn [kchain kpoint_stat].
                 destruct (bind (kchain knum p x None) _) as [tx|e] eqn:Ex; [|discriminate]. cbn [bind].
                 rewrite Es. cbn [bind].
                 destruct (kchain knum p x None) as [o|e] eqn:E; [|discriminate]. cbn [bind]. intros H.
                 assert (H' : real_iapp MeanCenter o tx (VMeans b t) = VMat m) by (injection H as H; exact H).
                 destruct (center_mat o tx _ m H') as (n & a1 & t1 & a2 & t2 & -> & _ & _). exact (B1 x n E).
               + intros x HG F. cbn [kchain kpoint_stat]. rewrite (S2 x HG F). cbn [bind]. rewrite Es. cbn [bind].
                 pose proof (B2 x HG F) as E2. cbv beta in E2. rewrite E2. cbn [bind]. f_equal.
                 cbn [iapp implicit_numerics real_iapp]. f_equal. unfold center2. now rewrite zipw_maps. }
        all: split;
          [exists False, (fun _ => True), g; (split; [|intros x y []]); intros x y m
          |exists False, (fun _ => True), h; (split; [|intros x []]); intros x m];
          cbn [kchain kpoint_stat]; rewrite Es;
          (destruct (kchain knum p x None) as [o|e0]; [|discriminate]); cbn [bind]; try discriminate;
          try (destruct (kchain knum p y None) as [o'|e1]; [|discriminate]); cbn [bind]; try discriminate;
          try (destruct (kchain knum p x (Some y)) as [o''|e2]; [|discriminate]); cbn [bind];
          try (destruct o; discriminate); try (destruct o, o', o''; discriminate).
      + split.
        * exists False, (fun _ => True), g. split; [|intros x y []]. intros x y m. cbn [kchain].
          destruct c; try discriminate; [now elim C2|now elim C1] || (now elim C1) || now elim C2.
        * exists False, (fun _ => True), h. split; [|intros x []]. intros x m. cbn [kchain].
          destruct c; try discriminate; (now elim C1) || now elim C2.
  Qed.
End Trees.

(** ** In the tree *)

Theorem features_pointwise (P : Type) (f : P -> vec) (k : P -> P -> R) (sample : list P) (d : nat) (p : path) :
  rect d (map f sample) -> enough_points p (length sample) ->
  let num := explicit_numerics (map f) (table k) sample in
  exists g : P -> vec, forall (s : tstate val (list P)) (r : option (list treq)) (x : nat),
    reached num true s -> requested (t_default s) r = Ok p ->
    fst (apply num true (Some x) None r s) = Ok (VMat (map g (t_heap s x))).
Proof.
  intros Hd Hn num. destruct (explicit_points f k sample p) as [(g & H)|H].
  - exists g. intros s r x Hr Hp. destruct (reached_inv num true s Hr) as (z & Hz).
    destruct (apply_value num true z s (Some x) None r p Hz Hp) as (s' & E & _). rewrite E.
    cbn [fst option_map value_of]. apply H.
  - rewrite <- (map_length f) in Hn.
    destruct (chain_oos_shape (map f) (table k) sample d Hd p sample Hn Hd) as (o & E & _).
    rewrite H in E. discriminate E.
Qed.

Theorem kernels_pointwise (P : Type) (f : P -> vec) (k : P -> P -> R) (sample : list P) (p : path) :
  let num := implicit_numerics (map f) (table k) sample in
  exists g : P -> P -> R, forall (s : tstate val (list P)) (r : option (list treq)) (x1 y1 x2 y2 : nat) (m1 m2 : mat),
    reached num false s -> requested (t_default s) r = Ok p ->
    fst (apply num false (Some x1) (Some y1) r s) = Ok (VMat m1) ->
    fst (apply num false (Some x2) (Some y2) r s) = Ok (VMat m2) ->
    m1 = table g (t_heap s x1) (t_heap s y1) /\
    forall (s' : tstate val (list P)) (r' : option (list treq)) (x y : nat),
      reached num false s' -> requested (t_default s') r' = Ok p ->
      incl (t_heap s' x ++ t_heap s' y) (t_heap s x1 ++ t_heap s y1 ++ t_heap s x2 ++ t_heap s y2) ->
      fst (apply num false (Some x) (Some y) r' s') = Ok (VMat (table g (t_heap s' x) (t_heap s' y))).
Proof.
  intros num. destruct (implicit_points f k sample p) as ((G & ok & g & A1 & A2) & _).
  exists g. intros s r x1 y1 x2 y2 m1 m2 Hr Hp.
  destruct (reached_inv num false s Hr) as (z & Hz).
  destruct (apply_value num false z s (Some x1) (Some y1) r p Hz Hp) as (s1 & E1 & _). rewrite E1.
  destruct (apply_value num false z s (Some x2) (Some y2) r p Hz Hp) as (s2 & E2 & _). rewrite E2.
  cbn [fst option_map value_of]. intros V1 V2.
  destruct (A1 _ _ _ V1) as (HG & F1 & F2). destruct (A1 _ _ _ V2) as (_ & F3 & F4). split.
  - pose proof (A2 _ _ HG F1 F2) as E. cbv beta in E.
    assert (Q : Ok (VMat m1) = Ok (VMat (table g (t_heap s x1) (t_heap s y1)))) by exact (eq_trans (eq_sym V1) E).
    now injection Q.
  - intros s' r' x y Hr' Hp' Hi. destruct (reached_inv num false s' Hr') as (z' & Hz').
    destruct (apply_value num false z' s' (Some x) (Some y) r' p Hz' Hp') as (s3 & E3 & _). rewrite E3.
    cbn [fst option_map value_of].
    assert (F : Forall ok (t_heap s' x ++ t_heap s' y)).
    { apply (incl_Forall Hi). repeat (apply Forall_app; split); assumption. }
    apply Forall_app in F. apply A2; tauto.
Qed.

Theorem sample_kernels_pointwise (P : Type) (f : P -> vec) (k : P -> P -> R) (sample : list P) (p : path) :
  let num := implicit_numerics (map f) (table k) sample in
  exists h : P -> vec, forall (s : tstate val (list P)) (r : option (list treq)) (x1 x2 : nat) (m1 m2 : mat),
    reached num false s -> requested (t_default s) r = Ok p ->
    fst (apply num false (Some x1) None r s) = Ok (VMat m1) ->
    fst (apply num false (Some x2) None r s) = Ok (VMat m2) ->
    m1 = map h (t_heap s x1) /\
    forall (s' : tstate val (list P)) (r' : option (list treq)) (x : nat),
      reached num false s' -> requested (t_default s') r' = Ok p ->
      incl (t_heap s' x) (t_heap s x1 ++ t_heap s x2) ->
      fst (apply num false (Some x) None r' s') = Ok (VMat (map h (t_heap s' x))).
Proof.
  intros num. destruct (implicit_points f k sample p) as (_ & (G & ok & h & B1 & B2)).
  exists h. intros s r x1 x2 m1 m2 Hr Hp.
  destruct (reached_inv num false s Hr) as (z & Hz).
  destruct (apply_value num false z s (Some x1) None r p Hz Hp) as (s1 & E1 & _). rewrite E1.
  destruct (apply_value num false z s (Some x2) None r p Hz Hp) as (s2 & E2 & _). rewrite E2.
  cbn [fst option_map value_of]. intros V1 V2.
  destruct (B1 _ _ V1) as (HG & F1). destruct (B1 _ _ V2) as (_ & F2). split.
  - pose proof (B2 _ HG F1) as E. cbv beta in E.
    assert (Q : Ok (VMat m1) = Ok (VMat (map h (t_heap s x1)))) by exact (eq_trans (eq_sym V1) E).
    now injection Q.
  - intros s' r' x Hr' Hp' Hi. destruct (reached_inv num false s' Hr') as (z' & Hz').
    destruct (apply_value num false z' s' (Some x) None r' p Hz' Hp') as (s3 & E3 & _). rewrite E3.
    cbn [fst option_map value_of]. apply B2; [exact HG|].
    apply (incl_Forall Hi). apply Forall_app; split; assumption.
Qed.

Lemma centered_defined {P : Type} (f : P -> vec) (k : P -> P -> R) (sample : list P) s x y : sample <> [] ->
  reached (implicit_numerics (map f) (table k) sample) false s ->
  exists m, fst (apply (implicit_numerics (map f) (table k) sample) false (Some x) (Some y) (Some [RName "center"]) s) = Ok (VMat m).
Proof.
  intros Hn Hr. destruct (reached_inv _ false s Hr) as (z & Hz).
  destruct (apply_value _ false z s (Some x) (Some y) (Some [RName "center"]) [MeanCenter] Hz eq_refl) as (s' & E & _).
  rewrite E. destruct sample as [|a sample]; [now elim Hn|]. eexists. reflexivity.
Qed.
