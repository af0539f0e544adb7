From Verif Require Import Base BaseProofs Cache CacheSpec CacheProofs LevelCache LevelCacheSpec LevelCacheProofs LevelMemorySpec.
Open Scope string_scope.
Open Scope Z_scope.

Lemma input_eqb_spec x y : reflect (x = y) (input_eqb x y).
Proof.
  destruct x as [|i], y as [|j]; cbn; try (constructor; congruence).
  destruct (String.eqb_spec i j) as [->|H]; constructor; congruence.
Qed.

Section Proofs.
  Context {D W L X O R : Type}.
  Variable out_dual : D -> option X -> result O.
  Variable out_primal : W -> L -> option X -> result O.
  Variable root : L -> L.
  Variable loss_original : bool -> result R.
  Variable loss_projected_dual : D -> result R.
  Variable loss_projected_primal : W -> result R.
  Variable sub : R -> R -> R.
  Notation state := (level D W L X O R).
  Implicit Types s : state.
  Notation fwd := (forward out_dual out_primal root).
  Notation lossf := (loss loss_original loss_projected_dual loss_projected_primal sub).
  Notation lossesf := (losses loss_original loss_projected_dual loss_projected_primal sub).
  Notation stepf := (lstep out_dual out_primal root loss_original loss_projected_dual loss_projected_primal sub).
  Notation runf := (lrun out_dual out_primal root loss_original loss_projected_dual loss_projected_primal sub).
  Notation before := (before_step loss_original loss_projected_dual loss_projected_primal sub).
  Notation run_m := (mrun out_dual out_primal root).
  Notation step_m := (mstep out_dual out_primal root).
  Notation ans := (answer out_dual out_primal root).
  Notation fr := (fresh out_dual out_primal root).

  (** Reading the losses touches only their components. *)
  Definition aside (k : string) : Prop := (forall r, k <> "subloss_original_" ++ rep_name r) /\ (forall r, k <> "subloss_projected_" ++ rep_name r) /\ ~ In k removed.
  Lemma aside_forward x r : aside (forward_key x r).
  Proof. split; [intros r' H; discriminate H|]. split; [intros r' H; discriminate H|apply forward_key_kept]. Qed.
  Lemma aside_root : aside "sqrt_vals".
  Proof.
    split; [intros r' H; discriminate H|]. split; [intros r' H; discriminate H|].
    unfold removed. cbn. intros H. repeat destruct H as [H|H]; try discriminate H; exact H.
  Qed.
  Lemma original_aside s n r k : caches_at s n -> aside k ->
    stored (l_cache (snd (read_original loss_original s r))) k = stored (l_cache s) k.
  Proof.
    intros Hn (H & _). rewrite original_eq. cbn [snd with_cache l_cache]. apply (get_other _ _ _ _ n _ (plain_loss _) Hn). apply H.
  Qed.
  Lemma projected_aside s n r k : caches_at s n -> aside k ->
    stored (l_cache (snd (read_projected loss_projected_dual loss_projected_primal s r))) k = stored (l_cache s) k.
  Proof.
    intros Hn (_ & H & _). rewrite projected_eq. cbn [snd with_cache l_cache]. apply (get_other _ _ _ _ n _ (plain_loss _) Hn). apply H.
  Qed.
  Lemma loss_aside s n r k : caches_at s n -> aside k -> stored (l_cache (snd (lossf s r))) k = stored (l_cache s) k.
  Proof.
    intros Hn Hk. unfold loss. pose proof (original_grows loss_original s r n Hn) as G. pose proof (original_aside s n r k Hn Hk) as A.
    destruct (read_original loss_original s r) as [a s1]. cbn [snd] in G, A. destruct a as [a|e]; [|exact A].
    pose proof (projected_aside s1 n r k (grows_at _ _ _ G Hn) Hk) as B.
    destruct (read_projected _ _ s1 r) as [b s2]. cbn [snd] in B.
    destruct b as [b|e]; cbn [snd]; congruence.
  Qed.
  Lemma losses_aside s n k : caches_at s n -> aside k -> stored (l_cache (snd (lossesf s))) k = stored (l_cache s) k.
  Proof.
    intros Hn Hk. unfold losses. pose proof (original_grows loss_original s (l_primal s) n Hn) as G.
    pose proof (original_aside s n (l_primal s) k Hn Hk) as A.
    destruct (read_original loss_original s (l_primal s)) as [a s1]. cbn [snd] in G, A. destruct a as [a|e]; [|exact A].
    pose proof (grows_at _ _ _ G Hn) as H1.
    pose proof (projected_grows loss_projected_dual loss_projected_primal s1 (l_primal s) n H1) as G'.
    pose proof (projected_aside s1 n (l_primal s) k H1 Hk) as B.
    destruct (read_projected _ _ s1 _) as [b s2]. cbn [snd] in G', B.
    destruct b as [b|e]; [|cbn [snd]; congruence].
    pose proof (loss_aside s2 n (l_primal s) k (grows_at _ _ _ G' H1) Hk) as C.
    destruct (lossf s2 (l_primal s)) as [c s3]. cbn [snd] in C.
    destruct c as [c|e]; cbn [snd]; congruence.
  Qed.

  Definition seen (c : cache (val L O R)) (k : string) : option (val L O R * bool) :=
    option_map (fun e => (e_val e, e_persisting e)) (stored c k).
  Definition here (v : option (val L O R)) : option (val L O R * bool) := option_map (fun v => (v, false)) v.
  Definition has s (k : string) (v : option (val L O R)) : Prop := seen (l_cache s) k = here v.
  Lemma has_eq s t k v : stored (l_cache t) k = stored (l_cache s) k -> has s k v -> has t k v.
  Proof. intros E. unfold has, seen. now rewrite E. Qed.

  Definition sim (n : Z) s (m : memory) : Prop :=
    wf (l_cache s) /\ caches_at s n /\ l_params s = m_params m /\ l_inputs s = m_inputs m /\
    has s "sqrt_vals" (option_map VRoot (m_root m)) /\
    forall x r, has s (forward_key x r) (option_map VOut (m_given m x r)).

  Lemma sim_content n s m x : sim n s m -> content s x = m_content m x.
  Proof. intros (_ & _ & _ & H & _). destruct x; cbn; [reflexivity|]. now rewrite H. Qed.

  (** The roots: the ones remembered, and from now on remembered. *)
  Lemma root_read n s m : 2 <= n -> sim n s m ->
    fst (get (l_cache s) "sqrt_vals" (Ok (VRoot (root (p_vals (l_params s))))) default_args) = Ok (VRoot (root_used root m)) /\
    seen (snd (get (l_cache s) "sqrt_vals" (Ok (VRoot (root (p_vals (l_params s))))) default_args)) "sqrt_vals"
      = Some (VRoot (root_used root m), false).
  Proof.
    intros H2 (_ & Hn & Hp & _ & Hroot & _). unfold has, seen in *. unfold root_used.
    destruct (stored (l_cache s) "sqrt_vals") as [e|] eqn:E; destruct (m_root m) as [l|]; cbn in Hroot; try discriminate Hroot.
    - rewrite (get_hit _ _ _ _ e plain_default E). cbn [fst snd]. rewrite E. cbn. injection Hroot as -> ->. auto.
    - rewrite (get_miss _ _ _ _ n plain_default Hn E). cbn [fst snd].
      replace (2 <=? n) with true by (symmetry; now apply Z.leb_le).
      unfold stored. cbn [with_entries c_entries]. rewrite dset_get_same. cbn. rewrite Hp. auto.
  Qed.
  Lemma compute_sim n s m x r : 2 <= n -> sim n s m -> fst (compute out_dual out_primal root s x r) = as_val VOut (fr m x r).
  Proof.
    intros H2 S. destruct (root_read n s m H2 S) as [A _]. pose proof (sim_content n s m x S) as C. destruct S as (_ & _ & Hp & _).
    unfold compute, fresh. destruct r; [|cbn [fst]; now rewrite Hp, C]. unfold read_root.
    destruct (get _ _ _ _) as [q c]. cbn [fst] in A. subst q. cbn [fst bind]. now rewrite Hp, C.
  Qed.

  Lemma forward_sim n s m x r : 2 <= n -> sim n s m -> fst (fwd s x r) = ans m x r /\ sim n (snd (fwd s x r)) (recall out_dual out_primal root m x r).
  Proof.
    intros H2 S. pose proof S as (Hw & Hn & Hp & Hi & Hroot & Hg). pose proof (Hg x r) as Hx. unfold has, seen in Hx.
    pose proof (forward_grows out_dual out_primal root s x r n Hn) as (G1 & _ & G3 & G4 & G5 & _).
    unfold answer, recall.
    destruct (stored (l_cache s) (forward_key x r)) as [e|] eqn:E; destruct (m_given m x r) as [o|] eqn:Em; cbn in Hx; try discriminate Hx.
    - injection Hx as Hx _. rewrite forward_eq, E. cbn [fst snd]. split; [cbn; now rewrite Hx|exact S].
    - pose proof (compute_sim n s m x r H2 S) as C. revert G1 G3 G4 G5. rewrite forward_eq, E. rewrite C. cbn [fst snd].
      set (c := snd (compute out_dual out_primal root s x r)). intros G1 G3 G4 G5.
      assert (Hc : c_level c = LInt n) by exact (grows_at _ _ _ (compute_grows out_dual out_primal root s x r n Hn) Hn).
      assert (Eo : forall k, k <> "sqrt_vals" -> stored c k = stored (l_cache s) k).
      { intros k Hk. unfold c. rewrite compute_cache. destruct r; [|reflexivity]. now apply (get_other _ _ _ _ n _ plain_default Hn). }
      assert (Ec : stored c (forward_key x r) = None) by (rewrite Eo; [exact E|discriminate]).
      assert (Er : seen c "sqrt_vals" = here (option_map VRoot (if r then Some (root_used root m) else m_root m))).
      { unfold c. rewrite compute_cache. destruct r; [exact (proj2 (root_read n s m H2 S))|exact Hroot]. }
      rewrite (get_miss _ _ _ _ n plain_forward Hc Ec). cbn [fst snd].
      split; [apply to_out_val|].
      replace (2 <=? n) with true by (symmetry; now apply Z.leb_le).
      unfold sim. rewrite (get_miss _ _ _ _ n plain_forward Hc Ec) in G4, G5. cbn [snd] in G4, G5.
      replace (2 <=? n) with true in G4, G5 by (symmetry; now apply Z.leb_le).
      cbn [with_cache l_cache l_params l_inputs m_params m_inputs m_root m_given] in *.
      split; [auto|]. split; [unfold caches_at in *; cbn [with_cache l_cache]; destruct (fr m x r); exact Hc|]. split; [exact Hp|]. split; [exact Hi|].
      unfold has. cbn [with_cache l_cache].
      destruct (fr m x r) as [o|err]; cbn [as_val].
      + split.
        * unfold seen, stored in *. cbn [with_entries c_entries]. rewrite dset_get_other by discriminate. exact Er.
        * intros y r'. unfold seen, stored. cbn [with_entries c_entries].
          destruct (input_eqb_spec x y) as [<-|Hne]; [destruct (Bool.eqb_spec r r') as [<-|Hr]|]; cbn [andb].
          -- rewrite dset_get_same. reflexivity.
          -- rewrite dset_get_other by (intros K; apply forward_key_inj in K as [_ K]; congruence).
             change (seen c (forward_key x r') = here (option_map VOut (m_given m x r'))). unfold seen. rewrite Eo by discriminate. apply Hg.
          -- rewrite dset_get_other by (intros K; apply forward_key_inj in K as [K _]; congruence).
             change (seen c (forward_key y r') = here (option_map VOut (m_given m y r'))). unfold seen. rewrite Eo by discriminate. apply Hg.
      + split; [exact Er|]. intros y r'. unfold seen. rewrite Eo by discriminate. apply Hg.
  Qed.

  Lemma sim_same n s t m : wf (l_cache t) -> caches_at t n -> l_params t = l_params s -> l_inputs t = l_inputs s ->
    (forall k, aside k -> stored (l_cache t) k = stored (l_cache s) k) -> sim n s m -> sim n t m.
  Proof.
    intros Hw Hn Hp Hi Hk (_ & _ & Hp' & Hi' & Hr & Hg). unfold sim. split; [exact Hw|]. split; [exact Hn|]. split; [congruence|]. split; [congruence|].
    split; [apply (has_eq s); [apply Hk, aside_root|exact Hr]|]. intros x r. apply (has_eq s); [apply Hk, aside_forward|apply Hg].
  Qed.
  Lemma remove_aside (c : cache (val L O R)) l k : wf c -> (forall x, In x l -> In x removed) -> aside k ->
    stored (remove_from_cache c (KeyList l)) k = stored c k.
  Proof.
    intros Hw Hl (_ & _ & Hk). rewrite remove_from_cache_stored by exact Hw.
    replace (smem k (key_items (KeyList l))) with false; [reflexivity|].
    symmetry. apply smem_not_In. intros Hin. apply Hk, Hl, Hin.
  Qed.

  Lemma step_sim n s m o : 2 <= n -> sim n s m -> sim n (stepf s o) (step_m m o).
  Proof.
    intros H2 S. pose proof S as (Hw & Hn & Hp & Hi & Hroot & Hg).
    destruct o as [x r|r| | |p b|f|]; cbn [lstep mstep].
    - now apply forward_sim.
    - pose proof (loss_grows loss_original loss_projected_dual loss_projected_primal sub s r n Hn) as (G1 & _ & G3 & G4 & G5 & _).
      apply (sim_same n s); [now apply G5| |exact G1|exact G3| |exact S].
      + unfold caches_at in *. congruence.
      + intros k Hk. now apply (loss_aside s n).
    - unfold before_step. pose proof (losses_grows loss_original loss_projected_dual loss_projected_primal sub s n Hn) as (G1 & _ & G3 & G4 & G5 & _).
      pose proof (fun k => losses_aside s n k Hn) as A. destruct (lossesf s) as [q s1]. cbn [snd] in *.
      destruct q as [q|err]; cbn [snd].
      + apply (sim_same n s); cbn [with_cache l_cache l_params l_inputs]; [now apply remove_from_cache_wf, G5| |exact G1|exact G3| |exact S].
        * unfold caches_at in *. cbn [with_cache l_cache]. rewrite remove_from_cache_level. congruence.
        * intros k Hk. rewrite remove_aside; [now apply A|now apply G5| |exact Hk]. intros x Hx. cbn in Hx. unfold removed. cbn. tauto.
      + apply (sim_same n s); [now apply G5| |exact G1|exact G3|exact A|exact S]. unfold caches_at in *. congruence.
    - exact S.
    - set (t := if b then with_cache s (remove_from_cache (l_cache s) (KeyList ["total_variance_primal"; "total_variance_dual"])) else s).
      assert (St : sim n t m).
      { unfold t. destruct b; [|exact S].
        apply (sim_same n s); cbn [with_cache l_cache l_params l_inputs]; [now apply remove_from_cache_wf| |reflexivity|reflexivity| |exact S].
        - unfold caches_at in *. cbn [with_cache l_cache]. now rewrite remove_from_cache_level.
        - intros k Hk. rewrite remove_aside; [reflexivity|exact Hw| |exact Hk]. intros x Hx. cbn in Hx. unfold removed. cbn. tauto. }
      destruct St as (Hw' & Hn' & _ & _ & Hr' & Hg'). unfold sim, change, has, caches_at, t in *.
      destruct b; cbn [l_cache l_params l_inputs m_params m_inputs m_root m_given with_cache] in *; repeat (split; [first [assumption|reflexivity]|]); assumption.
    - unfold sim, has, caches_at in *. cbn [l_cache l_params l_inputs m_params m_inputs m_root m_given]. repeat (split; [first [assumption|reflexivity]|]). assumption.
    - destruct (lstep_wf out_dual out_primal root loss_original loss_projected_dual loss_projected_primal sub s LReset n Hw Hn) as [Hw' Hn'].
      unfold sim. split; [exact Hw'|]. split; [exact Hn'|]. split; [exact Hp|]. split; [exact Hi|].
      cbn [lstep m_root m_given option_map]. unfold has. cbn [with_cache l_cache].
      assert (Z : forall k v, has s k v -> seen (reset_cache (l_cache s) false []) k = None).
      { intros k v Hk. unfold has, seen in *. rewrite reset_cache_stored by exact Hw. destruct (stored (l_cache s) k) as [e|]; [|reflexivity].
        destruct v as [v|]; cbn in Hk; [|discriminate Hk]. injection Hk as _ Hk. cbn [reset_fate]. unfold survives. now rewrite Hk. }
      split; [exact (Z _ _ Hroot)|]. intros x r. exact (Z _ _ (Hg x r)).
  Qed.
  Lemma run_sim n os : forall s m, 2 <= n -> sim n s m -> sim n (runf s os) (run_m m os).
  Proof. induction os as [|o os IH]; intros s m H2 S; [exact S|]. cbn. apply IH; [exact H2|]. now apply step_sim. Qed.
  Lemma sim0 n p r f : sim n (level0 (LInt n) p r f) (memory0 p f).
  Proof.
    destruct (bare_tidy out_dual out_primal root loss_original loss_projected_dual loss_projected_primal _ n (@level0_bare D W L X O R n p r f)) as [(Hw & Hn & _) _].
    unfold sim. repeat (split; [first [assumption|reflexivity]|]). reflexivity.
  Qed.
  Lemma level_remembers n p r f os x r' : 2 <= n ->
    fst (fwd (runf (level0 (LInt n) p r f) os) x r') = ans (run_m (memory0 p f) os) x r'.
  Proof. intros H2. apply (forward_sim n); [exact H2|]. apply run_sim; [exact H2|apply sim0]. Qed.

  (** Without a reset the roots stay those of the first read in primal. *)
  Lemma root_stays l x os : forall m, Forall no_reset os -> ~ In (LForward x true) os -> m_root m = Some l -> m_given m x true = None ->
    m_root (run_m m os) = Some l /\ m_given (run_m m os) x true = None.
  Proof.
    induction os as [|o os IH]; intros m Hos Hx Hl Hg; [auto|]. apply Forall_cons_iff in Hos as [Ho Hos]. cbn.
    apply IH; [exact Hos|intros H; apply Hx; now right| |].
    - destruct o as [y r|r| | |p b|g|]; try exact Hl; [|contradiction]. cbn [mstep]. unfold recall.
      destruct (m_given m y r); [exact Hl|]. cbn [m_root]. unfold root_used. rewrite Hl. now destruct r.
    - destruct o as [y r|r| | |p b|g|]; try exact Hg; [|contradiction]. cbn [mstep]. unfold recall.
      destruct (m_given m y r); [exact Hg|]. cbn [m_given]. destruct (fresh _ _ _ m y r); [|exact Hg].
      destruct (input_eqb_spec y x) as [->|Hne]; cbn [andb]; [|exact Hg]. destruct r; [|exact Hg]. exfalso. apply Hx. now left.
  Qed.
  Lemma primal_roots_of_first n p r f y x os : 2 <= n -> x <> y -> Forall no_reset os -> ~ In (LForward x true) os ->
    let s := runf (level0 (LInt n) p r f) (LForward y true :: os) in
    fst (fwd s x true) = out_primal (p_primal (l_params s)) (root (p_vals p)) (content s x).
  Proof.
    intros H2 Hxy Hos Hx s. pose proof (run_sim n (LForward y true :: os) _ _ H2 (sim0 n p r f)) as S. fold s in S.
    rewrite (proj1 (forward_sim n s _ x true H2 S)).
    destruct (root_stays (root (p_vals p)) x os (step_m (memory0 p f) (LForward y true)) Hos Hx) as [A B].
    - reflexivity.
    - cbn. destruct (out_primal _ _ _); [|reflexivity]. cbn. destruct (input_eqb_spec y x) as [->|Hne]; [congruence|reflexivity].
    - unfold answer. cbn [mrun fold_left]. change (fold_left step_m os (step_m (memory0 p f) (LForward y true))) with (run_m (step_m (memory0 p f) (LForward y true)) os).
      rewrite B. rewrite (sim_content n s _ x S). destruct S as (_ & _ & Hp & _). rewrite Hp. cbn [mrun fold_left].
      change (fold_left step_m os (step_m (memory0 p f) (LForward y true))) with (run_m (step_m (memory0 p f) (LForward y true)) os).
      unfold fresh, root_used. now rewrite A.
  Qed.
  Lemma contents_ignored n p r f os x r' o g : 2 <= n ->
    let s := runf (level0 (LInt n) p r f) os in
    fst (fwd s x r') = Ok o -> fst (fwd (runf s [LForward x r'; LInputs g]) x r') = Ok o.
  Proof.
    intros H2 s H. apply (reachable_output_frozen out_dual out_primal root loss_original loss_projected_dual loss_projected_primal sub n p r f os [LInputs g] x r' o H2); [|exact H].
    constructor; [exact I|constructor].
  Qed.
End Proofs.
