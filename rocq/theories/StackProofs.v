(** Proofs about stacked random features. *)
From Verif Require Import Base Stack StackSpec.
Open Scope nat_scope.
Open Scope list_scope.

Section S.
Context {P W : Type}.
Context (outer inner outer_back inner_back : list P -> P -> result P) (feat feat_back : W -> P -> result P).
Notation rowsP := (@rows P).
Notation layer_phi' := (layer_phi inner feat).
Notation stage' := (stage inner feat).
Notation through' := (through inner feat).
Notation projected' := (@projected P W outer).
Notation init' := (init_sample outer inner feat).
Notation step' := (step outer inner feat).
Notation run' := (run outer inner feat).
Notation construct' := (construct outer inner feat).

Lemma rows_images f : forall l l', rowsP f l = Ok l' -> images f l = l'.
Proof.
  induction l as [|p l IH]; intros l' H; cbn in *.
  - now injection H as <-.
  - destruct (f p) as [q|e]; [|discriminate H]. cbn in H. destruct (rowsP f l) as [qs|e]; [|discriminate H].
    cbn in H. injection H as <-. cbn. f_equal. now apply IH.
Qed.

Fixpoint chain (ws : list W) (base : list P) : list (layer P W) :=
  match ws with
  | [] => []
  | w :: ws' => Layer w base :: chain ws' (images (stage' w base) base)
  end.
Fixpoint final (ws : list W) (base : list P) : list P :=
  match ws with
  | [] => base
  | w :: ws' => final ws' (images (stage' w base) base)
  end.

Lemma chain_snoc w : forall ws base, chain (ws ++ [w]) base = chain ws base ++ [Layer w (final ws base)].
Proof. induction ws as [|v ws IH]; intros base; cbn; [reflexivity|]. f_equal. apply IH. Qed.

Lemma chain_weights : forall ws base, map l_weights (chain ws base) = ws.
Proof. induction ws as [|v ws IH]; intros base; cbn; [reflexivity|]. f_equal. apply IH. Qed.

Lemma final_last : forall ws base l ls, rev (chain ws base) = l :: ls ->
  final ws base = images (layer_phi' l) (l_sample l).
Proof.
  intros ws. destruct ws as [|w ws] using rev_ind; intros base l ls H; [discriminate H|].
  rewrite chain_snoc, rev_app_distr in H. cbn in H. injection H as <- _. clear IHws.
  assert (G : forall vs b, final (vs ++ [w]) b = images (stage' w (final vs b)) (final vs b)).
  { induction vs as [|v vs IH]; intros b; cbn; [reflexivity|]. apply IH. }
  rewrite G. reflexivity.
Qed.

Lemma explicit_chain : forall ws base s idx x, explicit inner feat (Stack s idx (chain ws base)) x = through' ws base x.
Proof.
  unfold explicit. cbn [k_layers].
  assert (E : forall (ls : list (layer P W)) e, fold_left (fun r l => bind r (layer_phi' l)) ls (Err e) = Err e)
    by (induction ls as [|l ls IH]; intros e; [reflexivity|apply IH]).
  induction ws as [|w ws IH]; intros base s idx x; [reflexivity|]. cbn [chain fold_left through bind].
  change (layer_phi' (Layer w base) x) with (stage' w base x).
  destruct (stage' w base x) as [y|e]; cbn [bind]; [now apply IH|apply E].
Qed.

Lemma refit_ok : forall ls s ls', refit inner feat s ls = (ls', Ok tt) -> ls' = chain (map l_weights ls) s.
Proof.
  induction ls as [|l ls IH]; intros s ls' H; cbn [refit] in H.
  - now injection H as <-.
  - destruct (rowsP (layer_phi' (Layer (l_weights l) s)) s) as [s'|e] eqn:E; [|discriminate H].
    destruct (refit inner feat s' ls) as [ls2 r] eqn:F. injection H as <- ->.
    cbn [map chain]. f_equal. rewrite (IH s' ls2 F). f_equal. symmetry. exact (rows_images _ _ _ E).
Qed.
Lemma refit_weights : forall ls s, map l_weights (fst (refit inner feat s ls)) = map l_weights ls.
Proof.
  induction ls as [|l ls IH]; intros s; cbn [refit]; [reflexivity|].
  destruct (rowsP (layer_phi' (Layer (l_weights l) s)) s) as [s'|e]; [|reflexivity].
  specialize (IH s'). destruct (refit inner feat s' ls) as [ls2 r]. cbn in *. now f_equal.
Qed.

(** The layers are fitted to the base of what was given. *)
Definition good (ws : list W) (a : list P * option (list nat)) (st : stack P W) : Prop :=
  k_layers st = chain ws (base_of outer a).

Lemma projected_base s idx ls p : projected' (Stack s (idx_or s idx) ls) = Ok p -> base_of outer (s, idx) = p.
Proof.
  unfold projected, current, base_of. cbn [k_sample k_idx fst snd]. intros H.
  destruct s as [|q s]; [discriminate H|]. change (idx_or (q :: s) idx) with (match idx with Some i => i | None => seq 0 (List.length (q :: s)) end) in H.
  destruct (select (q :: s) _) as [c|e]; [|discriminate H]. cbn [bind] in H. now apply rows_images.
Qed.

Lemma init_good ws s idx st st' : map l_weights (k_layers st) = ws -> init' s idx st = (st', Ok tt) -> good ws (s, idx) st'.
Proof.
  intros Hw H. unfold init_sample in H. destruct (projected' _) as [p|e] eqn:E; [|discriminate H].
  destruct (refit inner feat p (k_layers st)) as [ls r] eqn:F. injection H as <- ->.
  unfold good. cbn [k_layers]. rewrite (refit_ok _ _ _ F), Hw, (projected_base _ _ _ _ E). reflexivity.
Qed.
Lemma step_weights st o : map l_weights (k_layers (fst (step' st o))) = map l_weights (k_layers st).
Proof.
  destruct o as [s idx|vs idx|idx]; cbn [step fst].
  - unfold init_sample. destruct (projected' _) as [p|e]; [|reflexivity].
    pose proof (refit_weights (k_layers st) p) as H. destruct (refit inner feat p (k_layers st)) as [ls r]. exact H.
  - unfold update_sample. destruct (k_sample st) as [|q s]; [reflexivity|].
    destruct (Nat.eqb _ _); [|reflexivity]. destruct (write_all _ _); reflexivity.
  - reflexivity.
Qed.

Lemma step_good ws a st o : good ws a st -> (forall s idx, o = OInit s idx -> snd (step' st o) = Ok tt) ->
  good ws (last_init (fst a) (snd a) [o]) (fst (step' st o)).
Proof.
  intros G Ho. destruct a as [s0 i0]. cbn [fst snd]. destruct o as [s idx|vs idx|idx]; cbn [step last_init].
  - specialize (Ho s idx eq_refl). cbn [step] in Ho. destruct (init' s idx st) as [st' r] eqn:E. cbn [snd fst] in *. subst r.
    apply (init_good ws s idx st st'); [|exact E]. rewrite G. apply chain_weights.
  - unfold update_sample. destruct (k_sample st) as [|q s]; [exact G|].
    destruct (Nat.eqb _ _); [|exact G]. destruct (write_all _ _); exact G.
  - exact G.
Qed.

Lemma run_good ws : forall ops a st st' rs, good ws a st -> run' st ops = (st', rs) -> inits_accepted rs ->
  good ws (last_init (fst a) (snd a) ops) st'.
Proof.
  induction ops as [|o ops IH]; intros a st st' rs G H A; cbn [run] in H.
  - injection H as <- _. now destruct a.
  - destruct (step' st o) as [st1 r] eqn:E. destruct (run' st1 ops) as [st2 rs2] eqn:F. injection H as <- <-.
    assert (G1 : good ws (last_init (fst a) (snd a) [o]) st1).
    { change st1 with (fst (st1, r)). rewrite <- E. apply step_good; [exact G|].
      intros s idx ->. rewrite E. cbn [snd]. apply (A s idx r). now left. }
    assert (A2 : inits_accepted rs2) by (intros s idx r' I; apply (A s idx r'); now right).
    pose proof (IH _ _ _ _ G1 F A2) as R. destruct o as [s idx|vs idx|idx]; exact R.
Qed.

Lemma append_good ws w a st st' : good ws a st -> map l_weights (k_layers st) = ws ->
  (k_layers st = [] -> forall p, projected' st = Ok p -> base_of outer a = p) ->
  append outer inner feat (Ok st) w = Ok st' -> good (ws ++ [w]) a st'.
Proof.
  intros G Hw Hp H. unfold append in H. cbn [bind] in H.
  destruct (rev (k_layers st)) as [|l ls] eqn:R.
  - assert (E : k_layers st = []) by (rewrite <- (rev_involutive (k_layers st)), R; reflexivity).
    destruct (projected' st) as [p|e] eqn:Ep; [|discriminate H]. cbn [bind] in H. injection H as <-.
    unfold good. cbn [k_layers]. rewrite E in *. cbn [map] in Hw. subst ws. cbn. now rewrite (Hp eq_refl p eq_refl).
  - destruct (rowsP (layer_phi' l) (l_sample l)) as [s|e] eqn:Es; [|discriminate H]. cbn [bind] in H. injection H as <-.
    unfold good in *. cbn [k_layers]. rewrite chain_snoc, G. do 3 f_equal.
    rewrite G in R. rewrite (final_last _ _ _ _ R). symmetry. now apply rows_images.
Qed.

Lemma append_err ws : forall e, fold_left (append outer inner feat) ws (Err e) = Err e.
Proof. induction ws as [|w ws IH]; intros e; [reflexivity|apply IH]. Qed.

Lemma appends_good a : forall ws ws0 st st', good ws0 a st -> map l_weights (k_layers st) = ws0 ->
  (forall p ls, projected' (Stack (k_sample st) (k_idx st) ls) = Ok p -> base_of outer a = p) ->
  fold_left (append outer inner feat) ws (Ok st) = Ok st' ->
  good (ws0 ++ ws) a st' /\ k_sample st' = k_sample st /\ k_idx st' = k_idx st.
Proof.
  induction ws as [|w ws IH]; intros ws0 st st' G Hw Hp H.
  - cbn in H. injection H as <-. rewrite app_nil_r. now repeat split.
  - cbn [fold_left] in H. destruct (append outer inner feat (Ok st) w) as [st1|e] eqn:E; [|rewrite append_err in H; discriminate H].
    assert (G1 : good (ws0 ++ [w]) a st1).
    { apply (append_good ws0 w a st st1 G Hw); [|exact E]. intros _ p Ep. apply (Hp p (k_layers st)). now destruct st. }
    assert (S1 : k_sample st1 = k_sample st /\ k_idx st1 = k_idx st).
    { unfold append in E. cbn [bind] in E. destruct (match rev (k_layers st) with [] => _ | _ => _ end) as [s|e]; [|discriminate E].
      cbn [bind] in E. injection E as <-. now split. }
    destruct S1 as [Sa Sb]. specialize (IH (ws0 ++ [w]) st1 st' G1).
    rewrite <- app_assoc in IH. destruct IH as (I1 & I2 & I3); try assumption.
    + rewrite G1. apply chain_weights.
    + intros p ls. rewrite Sa, Sb. apply Hp.
    + repeat split; [exact I1|congruence|congruence].
Qed.

Lemma construct_good ws s idx st : construct' ws (Some s) idx = Ok st ->
  good ws (s, idx) st /\ k_sample st = s /\ k_idx st = idx_or s idx.
Proof.
  unfold construct. destruct (init' s idx (Stack [] [] [])) as [st0 r] eqn:E. intros H.
  destruct r as [[]|e]; [|cbn [bind] in H; rewrite append_err in H; discriminate H]. cbn [bind] in H.
  assert (G0 : good [] (s, idx) st0) by (apply (init_good [] s idx _ st0) in E; [exact E|reflexivity]).
  assert (S0 : k_sample st0 = s /\ k_idx st0 = idx_or s idx).
  { unfold init_sample in E. cbn [k_layers] in E. destruct (projected' _) as [p|e]; [|discriminate E]. cbn [refit] in E. injection E as <-. now split. }
  destruct S0 as [Sa Sb].
  destruct (appends_good (s, idx) ws [] st0 st G0) as (A & B & C).
  - unfold good in G0. rewrite G0. reflexivity.
  - intros p ls Hp. rewrite Sa, Sb in Hp. exact (projected_base s idx ls p Hp).
  - exact H.
  - cbn in A. repeat split; [exact A|congruence|congruence].
Qed.

(** C201: the exact content of the features, after any history. *)
Theorem stack_exactly : forall ws s idx st0 ops st rs x,
  construct' ws (Some s) idx = Ok st0 -> run' st0 ops = (st, rs) -> inits_accepted rs ->
  phi outer inner feat st x =
  bind (current st) (fun c => bind (outer c x) (through' ws (base_of outer (last_init s idx ops)))).
Proof.
  intros ws s idx st0 ops st rs x H0 H A. destruct (construct_good _ _ _ _ H0) as (G & _).
  pose proof (run_good ws ops (s, idx) st0 st rs G H A) as R. cbn [fst snd] in R.
  unfold phi. destruct (current st) as [c|e]; [|reflexivity]. cbn [bind]. destruct (outer c x) as [z|e]; [|reflexivity]. cbn [bind].
  destruct st as [s1 i1 ls]. unfold good in R. cbn [k_layers] in R. rewrite R. apply explicit_chain.
Qed.

(** Right after an initialisation, the stack is as new. *)
Lemma run_app : forall o1 o2 st, run' st (o1 ++ o2) =
  (let (st1, r1) := run' st o1 in let (st2, r2) := run' st1 o2 in (st2, r1 ++ r2)).
Proof.
  induction o1 as [|o o1 IH]; intros o2 st; cbn [app run].
  - now destruct (run' st o2).
  - destruct (step' st o) as [s1 r]. rewrite IH. destruct (run' s1 o1) as [s2 r2]. destruct (run' s2 o2) as [s3 r3]. reflexivity.
Qed.
Theorem stack_fresh : forall ws s0 i0 st0 ops s idx st rs,
  construct' ws (Some s0) i0 = Ok st0 -> run' st0 (ops ++ [OInit s idx]) = (st, rs) -> last rs (OInit [] None, Err ETypeError) = (OInit s idx, Ok tt) ->
  construct' ws (Some s) idx = Ok st.
Proof.
  intros ws s0 i0 st0 ops s idx st rs H0 H L. rewrite run_app in H.
  destruct (run' st0 ops) as [st1 r1] eqn:R1. cbn [run] in H. destruct (step' st1 (OInit s idx)) as [st2 r2] eqn:E.
  injection H as <- <-. rewrite last_last in L. injection L as ->. cbn [step] in E.
  assert (Hw : map l_weights (k_layers st1) = ws).
  { assert (W0 : map l_weights (k_layers st0) = ws) by (destruct (construct_good _ _ _ _ H0) as (G & _); rewrite G; apply chain_weights).
    clear - R1 W0. revert st0 st1 r1 R1 W0. induction ops as [|o ops IH]; intros st0 st1 r1 R W0; cbn [run] in R.
    - injection R as <- _. exact W0.
    - pose proof (step_weights st0 o) as SW. destruct (step' st0 o) as [sa ra] eqn:Es. destruct (run' sa ops) as [sb rb] eqn:Er.
      injection R as <- _. apply (IH sa sb rb Er). cbn [fst] in SW. congruence. }
  unfold init_sample in E. destruct (projected' (Stack s (idx_or s idx) (k_layers st1))) as [p|e] eqn:Ep; [|discriminate E].
  destruct (refit inner feat p (k_layers st1)) as [ls r] eqn:F. injection E as <- ->.
  assert (Ep' : forall ls', projected' (Stack s (idx_or s idx) ls') = Ok p) by (intros ls'; exact Ep).
  unfold construct, init_sample. cbn [k_layers]. rewrite (Ep' []). cbn [refit bind].
  clear H0 R1 r1 Ep st0 s0 i0 ops. subst ws.
  (* appending one by one reaches the same layers *)
  assert (G : forall pre ls p0 ls', refit inner feat p0 ls = (ls', Ok tt) ->
    (match rev pre with [] => Ok p | l :: _ => rowsP (layer_phi' l) (l_sample l) end) = Ok p0 ->
    fold_left (append outer inner feat) (map l_weights ls) (Ok (Stack s (idx_or s idx) pre)) = Ok (Stack s (idx_or s idx) (pre ++ ls'))).
  { clear - Ep'. intros pre ls. revert pre. induction ls as [|l ls IH]; intros pre p0 ls' R Hp; cbn [refit] in R.
    - injection R as <-. cbn. now rewrite app_nil_r.
    - destruct (rowsP (layer_phi' (Layer (l_weights l) p0)) p0) as [s'|e] eqn:Es; [|discriminate R].
      destruct (refit inner feat s' ls) as [ls2 r2] eqn:F. injection R as <- ->.
      cbn [map fold_left].
      assert (A : append outer inner feat (Ok (Stack s (idx_or s idx) pre)) (l_weights l) =
                  Ok (Stack s (idx_or s idx) (pre ++ [Layer (l_weights l) p0]))).
      { unfold append. cbn [bind k_layers k_sample k_idx]. rewrite (Ep' pre).
        destruct (rev pre) as [|lq lqs]; rewrite Hp; reflexivity. }
      rewrite A. rewrite (IH (pre ++ [Layer (l_weights l) p0]) s' ls2 F).
      + now rewrite <- app_assoc.
      + rewrite rev_app_distr. cbn [rev app l_sample]. exact Es. }
  exact (G [] (k_layers st1) p ls F eq_refl).
Qed.

(** The features of the sample are those of its points. *)
Lemma rows_compose f g : forall l, bind (rowsP f l) (rowsP g) = 
  bind (rowsP f l) (fun _ => rowsP (fun p => bind (f p) g) l).
Proof.
  induction l as [|p l IH]; [reflexivity|]. cbn [rows]. destruct (f p) as [q|e]; [|reflexivity]. cbn [bind].
  destruct (rowsP f l) as [qs|e]; [|reflexivity]. cbn [bind rows] in *. rewrite IH. reflexivity.
Qed.
Theorem stack_in_sample : forall st zs, @phi_sample P W outer inner feat st = Ok zs ->
  exists c, current st = Ok c /\ rowsP (phi outer inner feat st) c = Ok zs.
Proof.
  intros st zs H. unfold phi_sample, projected in H. destruct (current st) as [c|e] eqn:E; [|discriminate H]. cbn [bind] in H.
  exists c. split; [reflexivity|]. rewrite rows_compose in H. destruct (rowsP (outer c) c) as [q|e]; [|discriminate H]. cbn [bind] in H.
  unfold phi. rewrite E. exact H.
Qed.

(** ** Pre-images *)
Lemma layers_back : forall ls x y,
  (forall l, In l ls -> undoes (inner (l_sample l)) (inner_back (l_sample l)) /\ undoes (feat (l_weights l)) (feat_back (l_weights l))) ->
  fold_left (fun r l => bind r (layer_phi' l)) ls (Ok x) = Ok y ->
  fold_left (fun r l => bind r (layer_preimage inner_back feat_back l)) (rev ls) (Ok y) = Ok x.
Proof.
  assert (E : forall (ls : list (layer P W)) e, fold_left (fun r l => bind r (layer_phi' l)) ls (Err e) = Err e)
    by (induction ls as [|l ls IH]; intros e; [reflexivity|apply IH]).
  induction ls as [|l ls IH]; intros x y Hu H; [cbn in *; congruence|].
  cbn [fold_left bind] in H. cbn [rev]. rewrite fold_left_app. cbn [fold_left].
  destruct (layer_phi' l x) as [z|e] eqn:F; [|rewrite E in H; discriminate H].
  rewrite (IH z y) by (try exact H; intros l' I; apply Hu; now right). cbn [bind].
  destruct (Hu l (or_introl eq_refl)) as [U1 U2]. unfold layer_phi in F. destruct (inner (l_sample l) x) as [u|e] eqn:Fi; [|discriminate F].
  cbn [bind] in F. unfold layer_preimage. rewrite (U2 _ _ F). cbn [bind]. now apply U1.
Qed.
Theorem stack_preimage : forall (st : stack P W) x y,
  (forall c, current st = Ok c -> undoes (outer c) (outer_back c)) ->
  (forall l, In l (k_layers st) -> undoes (inner (l_sample l)) (inner_back (l_sample l)) /\ undoes (feat (l_weights l)) (feat_back (l_weights l))) ->
  phi outer inner feat st x = Ok y -> preimage outer_back inner_back feat_back st y = Ok x.
Proof.
  intros st x y Ho Hl H. unfold phi in H. destruct (current st) as [c|e] eqn:E; [|discriminate H]. cbn [bind] in H.
  destruct (outer c x) as [z|e] eqn:F; [|discriminate H]. cbn [bind] in H. unfold explicit in H.
  unfold preimage. rewrite (layers_back _ _ _ Hl H). cbn [bind]. rewrite E. cbn [bind]. now apply (Ho c eq_refl).
Qed.
End S.
