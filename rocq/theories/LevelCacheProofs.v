From Verif Require Import Base BaseProofs Cache CacheSpec CacheProofs LevelCache LevelCacheSpec.
Open Scope string_scope.
Open Scope Z_scope.

(** ** Reading through the cache *)
Section Get.
  Context {V : Type}.
  Implicit Types c : cache V.

  Definition plain (a : get_args) : Prop :=
    a_force a = false /\ a_overwrite a = false /\ a_persisting a = false /\ a_destroy a = false /\
    forall cur, entry_level cur (a_level_key a) (a_default_level a) = LInt 2.

  Lemma get_hit c k v a e : plain a -> stored c k = Some e -> get c k v a = (Ok (e_val e), c).
  Proof. intros (_ & Ho & _) H. unfold get. rewrite Ho. unfold stored in H. now rewrite H. Qed.

  Lemma get_miss c k v a n : plain a -> c_level c = LInt n -> stored c k = None ->
    get c k v a = (v, match v with Ok w => if 2 <=? n then with_entries c (dset (c_entries c) k (Entry (LInt 2) false w)) else c | Err _ => c end).
  Proof.
    intros (Hf & Ho & Hp & Hd & Hl) Hn H. unfold get. rewrite Ho. unfold stored in H. rewrite H.
    unfold save. destruct v as [w|e]; [|reflexivity]. rewrite Hl, Hn. cbn [lvl_le]. rewrite Hf, Hp, Hd, orb_false_r.
    destruct (2 <=? n); reflexivity.
  Qed.

  (** A read keeps what is stored. *)
  Lemma get_keeps c k v a n x e : plain a -> c_level c = LInt n -> stored c x = Some e ->
    stored (snd (get c k v a)) x = Some e.
  Proof.
    intros Ha Hn H. destruct (stored c k) as [e0|] eqn:E.
    - now rewrite (get_hit c k v a e0 Ha E).
    - rewrite (get_miss c k v a n Ha Hn E). cbn [snd]. destruct v as [w|err]; [|exact H].
      destruct (2 <=? n); [|exact H]. unfold stored in *. cbn [c_entries with_entries].
      destruct (String.eqb_spec x k) as [->|Hne]; [now rewrite H in E|].
      now rewrite dset_get_other.
  Qed.
  (** At a normal level a successful read is stored. *)
  Lemma get_stores c k v a n w : plain a -> c_level c = LInt n -> 2 <= n -> fst (get c k v a) = Ok w ->
    exists e, stored (snd (get c k v a)) k = Some e /\ e_val e = w.
  Proof.
    intros Ha Hn H2 H. destruct (stored c k) as [e0|] eqn:E.
    - rewrite (get_hit c k v a e0 Ha E) in *. cbn [fst snd] in *. injection H as <-. now exists e0.
    - rewrite (get_miss c k v a n Ha Hn E) in *. cbn [fst snd] in *. subst v.
      replace (2 <=? n) with true by (symmetry; now apply Z.leb_le).
      exists (Entry (LInt 2) false w). split; [|reflexivity]. unfold stored. cbn [c_entries with_entries]. apply dset_get_same.
  Qed.
End Get.

Lemma plain_default : plain default_args.
Proof. repeat (split; [reflexivity|]). reflexivity. Qed.
Lemma plain_forward : plain forward_args.
Proof. repeat (split; [reflexivity|]). reflexivity. Qed.
Lemma plain_loss b : plain (loss_args b).
Proof. repeat (split; [reflexivity|]). now destruct b. Qed.

(** ** Names *)
Lemma letters_app a b : list_ascii_of_string (a ++ b) = (list_ascii_of_string a ++ list_ascii_of_string b)%list.
Proof. induction a as [|ch a IH]; cbn; [reflexivity|now rewrite IH]. Qed.
Lemma letters_inj a b : list_ascii_of_string a = list_ascii_of_string b -> a = b.
Proof. intros H. rewrite <- (string_of_list_ascii_of_string a), <- (string_of_list_ascii_of_string b). now rewrite H. Qed.

Lemma rep_name_inj r r' : rep_name r = rep_name r' -> r = r'.
Proof. destruct r, r'; cbn; intros H; (reflexivity || discriminate H). Qed.

Lemma rep_suffix a b r r' : a ++ "_" ++ rep_name r = b ++ "_" ++ rep_name r' -> a = b /\ r = r'.
Proof.
  intros H. apply (f_equal list_ascii_of_string) in H. rewrite !letters_app in H.
  destruct r, r'.
  - split; [|reflexivity]. apply letters_inj. now apply app_inv_tail in H.
  - exfalso. apply (f_equal (@List.rev _)) in H. rewrite !rev_app_distr in H. cbn in H. discriminate H.
  - exfalso. apply (f_equal (@List.rev _)) in H. rewrite !rev_app_distr in H. cbn in H. discriminate H.
  - split; [|reflexivity]. apply letters_inj. now apply app_inv_tail in H.
Qed.
Lemma id_of_inj x y : id_of x = id_of y -> x = y.
Proof. destruct x as [|i], y as [|j]; cbn; intros H; [reflexivity|discriminate H|discriminate H|]. now injection H as ->. Qed.
Lemma forward_key_inj x y r r' : forward_key x r = forward_key y r' -> x = y /\ r = r'.
Proof.
  unfold forward_key. intros H. cbn [String.append] in H. injection H as H.
  apply rep_suffix in H as [H ->]. split; [now apply id_of_inj|reflexivity].
Qed.

Definition removed : list string := ["Original"; "Projected"; "Level loss"; "total_variance_primal"; "total_variance_dual"].
Lemma forward_key_kept x r : ~ In (forward_key x r) removed.
Proof. unfold forward_key, removed. cbn. intros H. repeat destruct H as [H|H]; try discriminate H; exact H. Qed.
Lemma original_kept r : ~ In ("subloss_original_" ++ rep_name r) removed.
Proof. unfold removed. cbn. intros H. repeat destruct H as [H|H]; try discriminate H; exact H. Qed.
Lemma projected_kept r : ~ In ("subloss_projected_" ++ rep_name r) removed.
Proof. unfold removed. cbn. intros H. repeat destruct H as [H|H]; try discriminate H; exact H. Qed.

Section Proofs.
  Context {D W L X O R : Type}.
  Variable out_dual : D -> option X -> result O.
  Variable out_primal : W -> L -> option X -> result O.
  Variable root : L -> L.
  Variable loss_original : bool -> result R.
  Variable loss_projected_dual : D -> result R.
  Variable loss_projected_primal : W -> result R.
  Variable sub : R -> R -> R.
  Notation state := (level D W L X O R).
  Implicit Types s : state.
  Notation fwd := (forward out_dual out_primal root).
  Notation lossf := (loss loss_original loss_projected_dual loss_projected_primal sub).
  Notation lossesf := (losses loss_original loss_projected_dual loss_projected_primal sub).
  Notation stepf := (lstep out_dual out_primal root loss_original loss_projected_dual loss_projected_primal sub).
  Notation runf := (lrun out_dual out_primal root loss_original loss_projected_dual loss_projected_primal sub).
  Notation before := (before_step loss_original loss_projected_dual loss_projected_primal sub).

  (** ** What a step keeps, whatever is read *)
  (** [s'] comes from [s] by reads. *)
  Definition grows s s' : Prop :=
    l_params s' = l_params s /\ l_primal s' = l_primal s /\ l_inputs s' = l_inputs s /\
    c_level (l_cache s') = c_level (l_cache s) /\ (wf (l_cache s) -> wf (l_cache s')) /\
    (forall k e, stored (l_cache s) k = Some e -> stored (l_cache s') k = Some e).
  Lemma grows_refl s : grows s s.
  Proof. unfold grows. repeat (split; [auto; fail|]). auto. Qed.
  Lemma grows_trans s t u : grows s t -> grows t u -> grows s u.
  Proof.
    intros (a & b & c & d & e & f) (a' & b' & c' & d' & e' & f'). unfold grows.
    split; [congruence|]. split; [congruence|]. split; [congruence|]. split; [congruence|]. split; auto.
  Qed.
  Lemma get_grows s k v a n : plain a -> caches_at s n -> grows s (with_cache s (snd (get (l_cache s) k v a))).
  Proof.
    intros Ha Hn. unfold grows. split; [reflexivity|]. split; [reflexivity|]. split; [reflexivity|].
    split; [apply get_level_field|]. split; [apply get_wf|]. intros x e. now apply (get_keeps _ _ _ _ n).
  Qed.
  Lemma grows_at s t n : grows s t -> caches_at s n -> caches_at t n.
  Proof. intros (_ & _ & _ & H & _) Hn. unfold caches_at. now rewrite H. Qed.

  Lemma forward_eq s x r : fwd s x r =
    match stored (l_cache s) (forward_key x r) with
    | Some e => (to_out (Ok (e_val e)), s)
    | None => (to_out (fst (get (snd (compute out_dual out_primal root s x r)) (forward_key x r) (fst (compute out_dual out_primal root s x r)) forward_args)),
               with_cache s (snd (get (snd (compute out_dual out_primal root s x r)) (forward_key x r) (fst (compute out_dual out_primal root s x r)) forward_args)))
    end.
  Proof.
    unfold forward, stored. destruct (dget _ _) as [e|]; [reflexivity|].
    destruct (compute _ _ _ _ _ _) as [v c]. cbn [fst snd]. now destruct (get _ _ _ _) as [q c'].
  Qed.
  Lemma compute_cache s x r : snd (compute out_dual out_primal root s x r) =
    if r then snd (get (l_cache s) "sqrt_vals" (Ok (VRoot (root (p_vals (l_params s))))) default_args) else l_cache s.
  Proof. unfold compute, read_root. destruct r; [|reflexivity]. now destruct (get _ _ _ _) as [q c']. Qed.
  Lemma compute_grows s x r n : caches_at s n -> grows s (with_cache s (snd (compute out_dual out_primal root s x r))).
  Proof.
    intros Hn. rewrite compute_cache. destruct r; [|destruct s; apply grows_refl]. apply (get_grows s _ _ _ n plain_default Hn).
  Qed.
  Lemma forward_grows s x r n : caches_at s n -> grows s (snd (fwd s x r)).
  Proof.
    intros Hn. rewrite forward_eq. destruct (stored _ _) as [e|]; [apply grows_refl|]. cbn [snd].
    pose proof (compute_grows s x r n Hn) as G.
    refine (grows_trans _ _ _ G _).
    exact (get_grows (with_cache s (snd (compute out_dual out_primal root s x r))) _ _ _ n plain_forward (grows_at _ _ _ G Hn)).
  Qed.

  Lemma original_eq s r : read_original loss_original s r =
    (to_loss (fst (get (l_cache s) ("subloss_original_" ++ rep_name r) (as_val VLoss (loss_original r)) (loss_args (Bool.eqb r (l_primal s))))),
     with_cache s (snd (get (l_cache s) ("subloss_original_" ++ rep_name r) (as_val VLoss (loss_original r)) (loss_args (Bool.eqb r (l_primal s)))))).
  Proof. unfold read_original. now destruct (get _ _ _ _). Qed.
  Lemma projected_eq s r : read_projected loss_projected_dual loss_projected_primal s r =
    (to_loss (fst (get (l_cache s) ("subloss_projected_" ++ rep_name r) (as_val VLoss (projected_now loss_projected_dual loss_projected_primal s r)) (loss_args (Bool.eqb r (l_primal s))))),
     with_cache s (snd (get (l_cache s) ("subloss_projected_" ++ rep_name r) (as_val VLoss (projected_now loss_projected_dual loss_projected_primal s r)) (loss_args (Bool.eqb r (l_primal s)))))).
  Proof. unfold read_projected, projected_now. now destruct (get _ _ _ _). Qed.
  Lemma original_grows s r n : caches_at s n -> grows s (snd (read_original loss_original s r)).
  Proof. intros Hn. rewrite original_eq. apply (get_grows s _ _ _ n (plain_loss _) Hn). Qed.
  Lemma projected_grows s r n : caches_at s n -> grows s (snd (read_projected loss_projected_dual loss_projected_primal s r)).
  Proof. intros Hn. rewrite projected_eq. apply (get_grows s _ _ _ n (plain_loss _) Hn). Qed.
  Lemma loss_grows s r n : caches_at s n -> grows s (snd (lossf s r)).
  Proof.
    intros Hn. unfold loss. pose proof (original_grows s r n Hn) as G.
    destruct (read_original loss_original s r) as [a s1]. cbn [snd] in G. destruct a as [a|e]; [|exact G].
    pose proof (projected_grows s1 r n (grows_at _ _ _ G Hn)) as G'.
    destruct (read_projected _ _ s1 r) as [b s2]. cbn [snd] in G'.
    destruct b as [b|e]; exact (grows_trans _ _ _ G G').
  Qed.
  Lemma losses_grows s n : caches_at s n -> grows s (snd (lossesf s)).
  Proof.
    intros Hn. unfold losses. pose proof (original_grows s (l_primal s) n Hn) as G.
    destruct (read_original loss_original s (l_primal s)) as [a s1]. cbn [snd] in G. destruct a as [a|e]; [|exact G].
    pose proof (grows_at _ _ _ G Hn) as H1.
    pose proof (projected_grows s1 (l_primal s) n H1) as G'.
    destruct (read_projected _ _ s1 _) as [b s2]. cbn [snd] in G'.
    destruct b as [b|e]; [|exact (grows_trans _ _ _ G G')].
    pose proof (loss_grows s2 (l_primal s) n (grows_at _ _ _ G' H1)) as G''.
    destruct (lossf s2 (l_primal s)) as [c s3]. cbn [snd] in G''.
    destruct c as [c|e]; exact (grows_trans _ _ _ G (grows_trans _ _ _ G' G'')).
  Qed.

  Definition holds s (k : string) (v : val L O R) : Prop := exists e, stored (l_cache s) k = Some e /\ e_val e = v.

  (** Every operation but a reset keeps every entry outside [removed]. *)
  Lemma lstep_keeps s o n k v : wf (l_cache s) -> caches_at s n -> no_reset o -> ~ In k removed -> holds s k v ->
    wf (l_cache (stepf s o)) /\ caches_at (stepf s o) n /\ holds (stepf s o) k v.
  Proof.
    intros Hw Hn Hr Hk (e & He & Hv).
    assert (G : forall t, grows s t -> wf (l_cache t) /\ caches_at t n /\ holds t k v).
    { intros t G. split; [now apply G|]. split; [now apply (grows_at s)|]. exists e. split; [now apply G|exact Hv]. }
    destruct o as [x r|r| | |p b|f|]; cbn [lstep].
    - apply G. now apply (forward_grows s x r n).
    - apply G. now apply (loss_grows s r n).
    - unfold before_step. pose proof (losses_grows s n Hn) as Gl. destruct (lossesf s) as [q s1]. cbn [snd] in Gl.
      destruct q as [q|err]; [|now apply G]. cbn [snd].
      destruct (G _ Gl) as (Hw1 & Hn1 & e1 & He1 & Hv1).
      split; [now apply remove_from_cache_wf|]. split; [unfold caches_at; cbn [with_cache l_cache]; now rewrite remove_from_cache_level|].
      exists e1. split; [|exact Hv1]. cbn [with_cache l_cache]. rewrite remove_from_cache_stored by exact Hw1.
      replace (smem k (key_items (KeyList ["Original"; "Projected"; "Level loss"]))) with false; [exact He1|].
      symmetry. apply smem_not_In. intros Hin. apply Hk. unfold removed. cbn in Hin |- *. tauto.
    - apply G, grows_refl.
    - unfold change. destruct b; cbn [l_cache].
      + split; [now apply remove_from_cache_wf|]. split; [unfold caches_at; cbn [l_cache]; now rewrite remove_from_cache_level|].
        exists e. split; [|exact Hv]. cbn [l_cache]. rewrite remove_from_cache_stored by exact Hw.
        replace (smem k (key_items (KeyList ["total_variance_primal"; "total_variance_dual"]))) with false; [exact He|].
        symmetry. apply smem_not_In. intros Hin. apply Hk. unfold removed. cbn in Hin |- *. tauto.
      + split; [exact Hw|]. split; [exact Hn|]. now exists e.
    - split; [exact Hw|]. split; [exact Hn|]. now exists e.
    - contradiction.
  Qed.
  Lemma lrun_keeps os : forall s n k v, wf (l_cache s) -> caches_at s n -> Forall no_reset os -> ~ In k removed -> holds s k v ->
    wf (l_cache (runf s os)) /\ caches_at (runf s os) n /\ holds (runf s os) k v.
  Proof.
    induction os as [|o os IH]; intros s n k v Hw Hn Hos Hk Hh; cbn; [auto|].
    apply Forall_cons_iff in Hos as [Ho Hos]. destruct (lstep_keeps s o n k v Hw Hn Ho Hk Hh) as (a & b & c). now apply IH.
  Qed.

  Lemma to_out_ok q o : to_out q = Ok o -> q = Ok (@VOut L O R o).
  Proof. destruct q as [[u|u|u]|e]; cbn; intros H; try discriminate H. now injection H as ->. Qed.
  Lemma to_loss_ok q o : to_loss q = Ok o -> q = Ok (@VLoss L O R o).
  Proof. destruct q as [[u|u|u]|e]; cbn; intros H; try discriminate H. now injection H as ->. Qed.

  Lemma forward_holds s x r n o : caches_at s n -> 2 <= n -> fst (fwd s x r) = Ok o -> holds (snd (fwd s x r)) (forward_key x r) (VOut o).
  Proof.
    intros Hn H2. rewrite forward_eq. destruct (stored _ _) as [e|] eqn:E; cbn [fst snd]; intros H; apply to_out_ok in H.
    - injection H as H. exists e. split; [exact E|exact H].
    - pose proof (grows_at _ _ _ (compute_grows s x r n Hn) Hn) as Hc. exact (get_stores _ _ _ _ n _ plain_forward Hc H2 H).
  Qed.
  Lemma holds_forward s x r o : holds s (forward_key x r) (VOut o) -> fwd s x r = (Ok o, s).
  Proof. intros (e & He & Hv). rewrite forward_eq, He. cbn. now rewrite Hv. Qed.

  (** C59: an output, once returned, is returned for ever. *)
  Lemma output_frozen s n x r o os : wf (l_cache s) -> caches_at s n -> 2 <= n -> Forall no_reset os ->
    fst (fwd s x r) = Ok o -> fst (fwd (runf (snd (fwd s x r)) os) x r) = Ok o.
  Proof.
    intros Hw Hn H2 Hos H. pose proof (forward_grows s x r n Hn) as G.
    destruct (lrun_keeps os (snd (fwd s x r)) n (forward_key x r) (VOut o)) as (_ & _ & Hh).
    - now apply G.
    - now apply (grows_at s).
    - exact Hos.
    - apply forward_key_kept.
    - now apply (forward_holds s x r n).
    - now rewrite (holds_forward _ _ _ _ Hh).
  Qed.

  (** C60: so are the components of the loss. *)
  Lemma original_holds s r n a : caches_at s n -> 2 <= n -> fst (read_original loss_original s r) = Ok a ->
    holds (snd (read_original loss_original s r)) ("subloss_original_" ++ rep_name r) (VLoss a).
  Proof.
    intros Hn H2. rewrite original_eq. cbn [fst snd]. intros H. apply to_loss_ok in H.
    exact (get_stores _ _ _ _ n _ (plain_loss _) Hn H2 H).
  Qed.
  Lemma projected_holds s r n a : caches_at s n -> 2 <= n -> fst (read_projected loss_projected_dual loss_projected_primal s r) = Ok a ->
    holds (snd (read_projected loss_projected_dual loss_projected_primal s r)) ("subloss_projected_" ++ rep_name r) (VLoss a).
  Proof.
    intros Hn H2. rewrite projected_eq. cbn [fst snd]. intros H. apply to_loss_ok in H.
    exact (get_stores _ _ _ _ n _ (plain_loss _) Hn H2 H).
  Qed.
  Lemma holds_original s r a : holds s ("subloss_original_" ++ rep_name r) (VLoss a) -> read_original loss_original s r = (Ok a, s).
  Proof.
    intros (e & He & Hv). rewrite original_eq, (get_hit _ _ _ _ e (plain_loss _) He). cbn. rewrite Hv. now destruct s.
  Qed.
  Lemma holds_projected s r a : holds s ("subloss_projected_" ++ rep_name r) (VLoss a) ->
    read_projected loss_projected_dual loss_projected_primal s r = (Ok a, s).
  Proof.
    intros (e & He & Hv). rewrite projected_eq, (get_hit _ _ _ _ e (plain_loss _) He). cbn. rewrite Hv. now destruct s.
  Qed.
  Lemma loss_holds s r n l : caches_at s n -> 2 <= n -> fst (lossf s r) = Ok l ->
    exists a b, l = sub a b /\ holds (snd (lossf s r)) ("subloss_original_" ++ rep_name r) (VLoss a) /\
      holds (snd (lossf s r)) ("subloss_projected_" ++ rep_name r) (VLoss b).
  Proof.
    intros Hn H2. unfold loss. pose proof (original_grows s r n Hn) as G. pose proof (fun a => original_holds s r n a Hn H2) as Ha.
    destruct (read_original loss_original s r) as [qa s1]. cbn [fst snd] in *. destruct qa as [a|e]; cbn [fst snd]; [|discriminate].
    specialize (Ha a eq_refl). pose proof (grows_at _ _ _ G Hn) as Hn1.
    pose proof (projected_grows s1 r n Hn1) as G'. pose proof (fun b => projected_holds s1 r n b Hn1 H2) as Hb.
    destruct (read_projected _ _ s1 r) as [qb s2]. cbn [fst snd] in *. destruct qb as [b|e]; cbn [fst snd]; [|discriminate].
    specialize (Hb b eq_refl). intros H. injection H as <-. exists a, b. split; [reflexivity|]. split; [|exact Hb].
    destruct Ha as (e & He & Hv). exists e. split; [now apply G'|exact Hv].
  Qed.
  Lemma holds_loss s r a b : holds s ("subloss_original_" ++ rep_name r) (VLoss a) -> holds s ("subloss_projected_" ++ rep_name r) (VLoss b) ->
    lossf s r = (Ok (sub a b), s).
  Proof. intros Ha Hb. unfold loss. now rewrite (holds_original s r a Ha), (holds_projected s r b Hb). Qed.

  Lemma loss_frozen s n r l os : wf (l_cache s) -> caches_at s n -> 2 <= n -> Forall no_reset os ->
    fst (lossf s r) = Ok l -> fst (lossf (runf (snd (lossf s r)) os) r) = Ok l.
  Proof.
    intros Hw Hn H2 Hos H. pose proof (loss_grows s r n Hn) as G.
    destruct (loss_holds s r n l Hn H2 H) as (a & b & -> & Ha & Hb).
    assert (Hw' : wf (l_cache (snd (lossf s r)))) by now apply G.
    pose proof (grows_at _ _ _ G Hn) as Hn'.
    destruct (lrun_keeps os _ n _ _ Hw' Hn' Hos (original_kept r) Ha) as (_ & _ & Ha').
    destruct (lrun_keeps os _ n _ _ Hw' Hn' Hos (projected_kept r) Hb) as (_ & _ & Hb').
    now rewrite (holds_loss _ r a b Ha' Hb').
  Qed.

  (** [before_step] itself stores the components it is meant to remove. *)
  Lemma before_step_frozen s n os : wf (l_cache s) -> caches_at s n -> 2 <= n -> Forall no_reset os ->
    fst (before s) = Ok tt ->
    exists l, fst (lossf s (l_primal s)) = Ok l /\ fst (lossf (runf (snd (before s)) os) (l_primal s)) = Ok l.
  Proof.
    intros Hw Hn H2 Hos. set (r := l_primal s). unfold before_step, losses. fold r.
    assert (L1 : lossf s r = let '(a, s1) := read_original loss_original s r in
      match a with Err e => (Err e, s1) | Ok a => let '(b, s2) := read_projected loss_projected_dual loss_projected_primal s1 r in
        match b with Err e => (Err e, s2) | Ok b => (Ok (sub a b), s2) end end) by reflexivity.
    pose proof (original_grows s r n Hn) as G. pose proof (fun a => original_holds s r n a Hn H2) as Ha.
    destruct (read_original loss_original s r) as [qa s1]. cbn [fst snd] in *. destruct qa as [a|e]; cbn [fst snd]; [|discriminate].
    specialize (Ha a eq_refl). pose proof (grows_at _ _ _ G Hn) as Hn1.
    pose proof (projected_grows s1 r n Hn1) as G'. pose proof (fun b => projected_holds s1 r n b Hn1 H2) as Hb.
    destruct (read_projected _ _ s1 r) as [qb s2]. cbn [fst snd] in *. destruct qb as [b|e]; cbn [fst snd]; [|discriminate].
    specialize (Hb b eq_refl).
    assert (Ha2 : holds s2 ("subloss_original_" ++ rep_name r) (VLoss a)).
    { destruct Ha as (e & He & Hv). exists e. split; [now apply G'|exact Hv]. }
    rewrite (holds_loss s2 r a b Ha2 Hb). cbn [fst snd]. intros _. exists (sub a b). rewrite L1. split; [reflexivity|].
    assert (Hw2 : wf (l_cache s2)) by (apply G', G, Hw).
    pose proof (grows_at _ _ _ G' Hn1) as Hn2.
    set (c := with_cache s2 (remove_from_cache (l_cache s2) (KeyList ["Original"; "Projected"; "Level loss"]))).
    assert (Hwc : wf (l_cache c)) by (subst c; cbn [with_cache l_cache]; now apply remove_from_cache_wf).
    assert (Hnc : caches_at c n) by (subst c; unfold caches_at; cbn [with_cache l_cache]; now rewrite remove_from_cache_level).
    assert (K : forall k v, ~ In k removed -> holds s2 k v -> holds c k v).
    { intros k v Hk (e & He & Hv). exists e. split; [|exact Hv]. subst c. cbn [with_cache l_cache].
      rewrite remove_from_cache_stored by exact Hw2.
      replace (smem k (key_items (KeyList ["Original"; "Projected"; "Level loss"]))) with false; [exact He|].
      symmetry. apply smem_not_In. intros Hin. apply Hk. unfold removed. cbn in Hin |- *. tauto. }
    clearbody c.
    destruct (lrun_keeps os c n _ _ Hwc Hnc Hos (original_kept r) (K _ _ (original_kept r) Ha2)) as (_ & _ & Ha').
    destruct (lrun_keeps os c n _ _ Hwc Hnc Hos (projected_kept r) (K _ _ (projected_kept r) Hb)) as (_ & _ & Hb').
    now rewrite (holds_loss _ r a b Ha' Hb').
  Qed.

  (** ** Histories that give current values *)
  Notation out_now := (output_now out_dual out_primal root).
  Notation proj_now := (projected_now loss_projected_dual loss_projected_primal).

  Inductive meant s : string -> result (val L O R) -> Prop :=
  | meant_forward x r : meant s (forward_key x r) (as_val VOut (out_now s x r))
  | meant_root : meant s "sqrt_vals" (Ok (VRoot (root (p_vals (l_params s)))))
  | meant_original r : meant s ("subloss_original_" ++ rep_name r) (as_val VLoss (loss_original r))
  | meant_projected r : meant s ("subloss_projected_" ++ rep_name r) (as_val VLoss (proj_now s r)).

  Lemma meant_unique s k v v' : meant s k v -> meant s k v' -> v = v'.
  Proof.
    intros H H'. destruct H as [x r| |r|r]; inversion H' as [y r' E|E|r' E|r' E]; subst; clear H'; try discriminate;
      try reflexivity.
    - destruct (rep_suffix _ _ _ _ E) as [E' ->]. apply id_of_inj in E' as ->. reflexivity.
    - destruct r, r'; try discriminate E; reflexivity.
    - destruct r, r'; try discriminate E; reflexivity.
  Qed.

  Lemma meant_ext s t k v : l_params s = l_params t -> l_inputs s = l_inputs t -> meant s k v -> meant t k v.
  Proof.
    destruct s as [sc sp sr sx], t as [tc tp tr tx]. cbn [l_params l_inputs]. intros -> ->. intros [x r| |r|r].
    - exact (meant_forward (Level tc tp tr tx) x r).
    - exact (meant_root (Level tc tp tr tx)).
    - exact (meant_original (Level tc tp tr tx) r).
    - exact (meant_projected (Level tc tp tr tx) r).
  Qed.

  Definition tidy s n : Prop := wf (l_cache s) /\ caches_at s n /\ forall k e, stored (l_cache s) k = Some e -> e_persisting e = false.
  Definition current s : Prop := forall k e, stored (l_cache s) k = Some e -> meant s k (Ok (e_val e)).

  Lemma get_current s n k v a : plain a -> tidy s n -> current s -> meant s k v ->
    fst (get (l_cache s) k v a) = v /\ tidy (with_cache s (snd (get (l_cache s) k v a))) n /\
    current (with_cache s (snd (get (l_cache s) k v a))).
  Proof.
    intros Ha (Hw & Hn & Hp) Hc Hk. destruct (stored (l_cache s) k) as [e|] eqn:E.
    - rewrite (get_hit _ _ _ _ e Ha E). cbn [fst snd]. split; [apply (meant_unique s k); [now apply Hc|exact Hk]|].
      destruct s as [sc sp sr sx]. cbn [with_cache l_cache l_params l_primal l_inputs] in *. split; [|exact Hc].
      split; [exact Hw|]. split; [exact Hn|exact Hp].
    - pose proof (get_wf (l_cache s) k v a Hw) as Hw'. pose proof (get_level_field (l_cache s) k v a) as Hl.
      rewrite (get_miss _ _ _ _ n Ha Hn E) in *. cbn [fst snd] in *. split; [reflexivity|].
      assert (Q : forall x e, stored match v with Ok w => if 2 <=? n then with_entries (l_cache s) (dset (c_entries (l_cache s)) k (Entry (LInt 2) false w)) else l_cache s | Err _ => l_cache s end x = Some e ->
        stored (l_cache s) x = Some e \/ (x = k /\ e_persisting e = false /\ v = Ok (e_val e))).
      { intros x e He. destruct v as [w|err]; [|now left]. destruct (2 <=? n); [|now left].
        unfold stored in He |- *. cbn [with_entries c_entries] in He. destruct (String.eqb_spec x k) as [->|Hne].
        - rewrite dset_get_same in He. injection He as <-. right. auto.
        - rewrite dset_get_other in He by exact Hne. now left. }
      split.
      + split; [exact Hw'|]. split; [unfold caches_at; cbn [with_cache l_cache]; now rewrite Hl|].
        intros x e He. apply Q in He as [He|(_ & He & _)]; [now apply (Hp x)|exact He].
      + intros x e He. cbn [with_cache l_cache] in He. apply Q in He as [He|(-> & _ & He)].
        * exact (meant_ext s (with_cache s _) x _ eq_refl eq_refl (Hc x e He)).
        * rewrite He in Hk. exact (meant_ext s (with_cache s _) k _ eq_refl eq_refl Hk).
  Qed.

  Lemma to_out_val (q : result O) : to_out (as_val (@VOut L O R) q) = q.
  Proof. now destruct q. Qed.
  Lemma to_loss_val (q : result R) : to_loss (as_val (@VLoss L O R) q) = q.
  Proof. now destruct q. Qed.
  Lemma out_now_cache s c x r : out_now (with_cache s c) x r = out_now s x r.
  Proof. reflexivity. Qed.

  Lemma compute_current s n x r : tidy s n -> current s ->
    fst (compute out_dual out_primal root s x r) = as_val VOut (out_now s x r) /\
    tidy (with_cache s (snd (compute out_dual out_primal root s x r))) n /\
    current (with_cache s (snd (compute out_dual out_primal root s x r))).
  Proof.
    intros Ht Hc. destruct r.
    - destruct (get_current s n _ _ default_args plain_default Ht Hc (meant_root s)) as (F & T & C).
      unfold compute, read_root. destruct (get _ _ _ _) as [q c]. cbn [fst snd] in *. subst q. cbn [bind]. auto.
    - unfold compute. cbn [fst snd]. split; [reflexivity|]. destruct s; auto.
  Qed.
  Lemma forward_current s n x r : tidy s n -> current s ->
    fst (fwd s x r) = out_now s x r /\ tidy (snd (fwd s x r)) n /\ current (snd (fwd s x r)).
  Proof.
    intros Ht Hc. rewrite forward_eq. destruct (stored _ _) as [e|] eqn:E.
    - pose proof (meant_unique s _ _ _ (Hc _ _ E) (meant_forward s x r)) as U. cbn [fst snd]. rewrite U. now rewrite to_out_val.
    - destruct (compute_current s n x r Ht Hc) as (F & T & C). rewrite F. set (c := snd (compute out_dual out_primal root s x r)) in *.
      destruct (get_current (with_cache s c) n _ _ forward_args plain_forward T C (meant_forward (with_cache s c) x r)) as (F' & T' & C').
      rewrite out_now_cache in F', T', C'. cbn [l_cache with_cache] in F'. cbn [fst snd]. rewrite F', to_out_val. auto.
  Qed.
  Lemma original_current s n r : tidy s n -> current s ->
    fst (read_original loss_original s r) = loss_original r /\ tidy (snd (read_original loss_original s r)) n /\ current (snd (read_original loss_original s r)).
  Proof.
    intros Ht Hc. rewrite original_eq. cbn [fst snd].
    destruct (get_current s n _ _ (loss_args (Bool.eqb r (l_primal s))) (plain_loss _) Ht Hc (meant_original s r)) as (F & T & C).
    rewrite F, to_loss_val. auto.
  Qed.
  Lemma projected_current s n r : tidy s n -> current s ->
    fst (read_projected loss_projected_dual loss_projected_primal s r) = proj_now s r /\
    tidy (snd (read_projected loss_projected_dual loss_projected_primal s r)) n /\ current (snd (read_projected loss_projected_dual loss_projected_primal s r)).
  Proof.
    intros Ht Hc. rewrite projected_eq. cbn [fst snd].
    destruct (get_current s n _ _ (loss_args (Bool.eqb r (l_primal s))) (plain_loss _) Ht Hc (meant_projected s r)) as (F & T & C).
    rewrite F, to_loss_val. auto.
  Qed.
  Lemma loss_current s n r : tidy s n -> current s ->
    fst (lossf s r) = loss_now loss_original loss_projected_dual loss_projected_primal sub s r /\ tidy (snd (lossf s r)) n /\ current (snd (lossf s r)).
  Proof.
    intros Ht Hc. unfold loss, loss_now. destruct (original_current s n r Ht Hc) as (F & T & C).
    pose proof (original_grows s r n (proj1 (proj2 Ht))) as G.
    destruct (read_original loss_original s r) as [a s1]. cbn [fst snd] in *. rewrite <- F. destruct a as [a|e]; cbn [bind fst snd]; [|auto].
    destruct (projected_current s1 n r T C) as (F' & T' & C').
    assert (P : proj_now s1 r = proj_now s r). { unfold projected_now. destruct G as (-> & _). reflexivity. }
    destruct (read_projected _ _ s1 r) as [b s2]. cbn [fst snd] in *. rewrite <- P, <- F'. destruct b as [b|e]; cbn [bind fst snd]; auto.
  Qed.
  Lemma losses_current s n : tidy s n -> current s -> tidy (snd (lossesf s)) n /\ current (snd (lossesf s)).
  Proof.
    intros Ht Hc. unfold losses. destruct (original_current s n (l_primal s) Ht Hc) as (_ & T & C).
    destruct (read_original loss_original s (l_primal s)) as [a s1]. cbn [fst snd] in *. destruct a as [a|e]; cbn [fst snd]; [|auto].
    destruct (projected_current s1 n (l_primal s) T C) as (_ & T' & C').
    destruct (read_projected _ _ s1 _) as [b s2]. cbn [fst snd] in *. destruct b as [b|e]; cbn [fst snd]; [|auto].
    destruct (loss_current s2 n (l_primal s) T' C') as (_ & T'' & C'').
    destruct (lossf s2 (l_primal s)) as [c s3]. cbn [fst snd] in *. auto.
  Qed.

  Lemma shrink s c n : tidy s n -> wf c -> c_level c = c_level (l_cache s) ->
    (forall k e, stored c k = Some e -> stored (l_cache s) k = Some e) ->
    tidy (with_cache s c) n /\ (current s -> current (with_cache s c)).
  Proof.
    intros (Hw & Hn & Hp) Hwc Hl Hs. split.
    - split; [exact Hwc|]. split; [unfold caches_at; cbn [with_cache l_cache]; now rewrite Hl|].
      intros k e He. exact (Hp k e (Hs k e He)).
    - intros Hc k e He. exact (meant_ext s (with_cache s c) k _ eq_refl eq_refl (Hc k e (Hs k e He))).
  Qed.
  Lemma removed_sub (c : cache (val L O R)) l : wf c -> forall k e, stored (remove_from_cache c (KeyList l)) k = Some e -> stored c k = Some e.
  Proof. intros Hw k e H. rewrite remove_from_cache_stored in H by exact Hw. destruct (smem k _); [discriminate H|exact H]. Qed.
  Lemma before_step_current s n : tidy s n -> current s -> tidy (snd (before s)) n /\ current (snd (before s)).
  Proof.
    intros Ht Hc. unfold before_step. destruct (losses_current s n Ht Hc) as (T & C).
    destruct (lossesf s) as [q s1]. cbn [snd] in *. destruct q as [q|e]; cbn [snd]; [|auto].
    destruct (shrink s1 (remove_from_cache (l_cache s1) (KeyList ["Original"; "Projected"; "Level loss"])) n T) as [A B].
    - apply remove_from_cache_wf, T.
    - apply remove_from_cache_level.
    - apply removed_sub, T.
    - auto.
  Qed.
  Lemma reset_empties s n : tidy s n -> forall k, stored (reset_cache (l_cache s) false []) k = None.
  Proof.
    intros (Hw & Hn & Hp) k. rewrite reset_cache_stored by exact Hw. destruct (stored (l_cache s) k) as [e|] eqn:E; [|reflexivity].
    cbn [reset_fate]. unfold survives. now rewrite (Hp k e E).
  Qed.

  (** A careful history ends with current values. *)
  Lemma careful_current os : forall s n (dirty : bool), tidy s n -> (dirty = false -> current s) -> careful dirty os ->
    tidy (runf s os) n /\ current (runf s os).
  Proof.
    induction os as [|o os IH]; intros s n dirty Ht Hc Hos; cbn [careful] in Hos.
    - cbn. auto.
    - cbn [lrun fold_left]. change (fold_left stepf os (stepf s o)) with (runf (stepf s o) os).
      destruct o as [x r|r| | |p b|f|]; cbn [lstep].
      + destruct Hos as [Hd Hos]. destruct (forward_current s n x r Ht (Hc Hd)) as (_ & T & C). exact (IH _ n false T (fun _ => C) Hos).
      + destruct Hos as [Hd Hos]. destruct (loss_current s n r Ht (Hc Hd)) as (_ & T & C). exact (IH _ n false T (fun _ => C) Hos).
      + destruct Hos as [Hd Hos]. destruct (before_step_current s n Ht (Hc Hd)) as (T & C). exact (IH _ n false T (fun _ => C) Hos).
      + exact (IH s n dirty Ht Hc Hos).
      + refine (IH _ n true _ _ Hos); [|discriminate]. unfold change.
        destruct b; [|exact Ht].
        destruct (shrink s (remove_from_cache (l_cache s) (KeyList ["total_variance_primal"; "total_variance_dual"])) n Ht) as [A _].
        * apply remove_from_cache_wf, Ht.
        * apply remove_from_cache_level.
        * apply removed_sub, Ht.
        * exact A.
      + refine (IH _ n true _ _ Hos); [exact Ht|discriminate].
      + pose proof (reset_empties s n Ht) as Z. refine (IH _ n false _ _ Hos).
        * split; [apply reset_cache_wf, Ht|]. split; [unfold caches_at; cbn [with_cache l_cache]; rewrite reset_cache_level; apply Ht|].
          intros k e He. cbn [with_cache l_cache] in He. rewrite Z in He. discriminate He.
        * intros _ k e He. cbn [with_cache l_cache] in He. rewrite Z in He. discriminate He.
  Qed.

  (** Below the normal level nothing of this is ever stored. *)
  Definition bare s n : Prop := caches_at s n /\ c_entries (l_cache s) = [].
  Lemma bare_tidy s n : bare s n -> tidy s n /\ current s.
  Proof.
    intros [Hn He]. split.
    - split; [unfold wf; rewrite He; constructor|]. split; [exact Hn|]. intros k e H. unfold stored in H. rewrite He in H. discriminate H.
    - intros k e H. unfold stored in H. rewrite He in H. discriminate H.
  Qed.
  Lemma get_bare s n k v a : plain a -> n < 2 -> bare s n -> snd (get (l_cache s) k v a) = l_cache s.
  Proof.
    intros Ha H2 [Hn He]. rewrite (get_miss _ _ _ _ n Ha Hn) by (unfold stored; now rewrite He). cbn [snd].
    destruct v as [w|err]; [|reflexivity]. now replace (2 <=? n) with false by (symmetry; now apply Z.leb_gt).
  Qed.
  Lemma same_cache s : with_cache s (l_cache s) = s.
  Proof. now destruct s. Qed.
  Lemma forward_bare s n x r : n < 2 -> bare s n -> snd (fwd s x r) = s.
  Proof.
    intros H2 Hb. rewrite forward_eq. unfold stored at 1. rewrite (proj2 Hb). cbn [dget]. cbn [snd].
    assert (E : snd (compute out_dual out_primal root s x r) = l_cache s).
    { rewrite compute_cache. destruct r; [|reflexivity]. now apply (get_bare s n _ _ _ plain_default). }
    rewrite E. rewrite (get_bare s n _ _ _ plain_forward H2 Hb). apply same_cache.
  Qed.
  Lemma original_bare s n r : n < 2 -> bare s n -> snd (read_original loss_original s r) = s.
  Proof. intros H2 Hb. rewrite original_eq. cbn [snd]. rewrite (get_bare s n _ _ _ (plain_loss _) H2 Hb). apply same_cache. Qed.
  Lemma projected_bare s n r : n < 2 -> bare s n -> snd (read_projected loss_projected_dual loss_projected_primal s r) = s.
  Proof. intros H2 Hb. rewrite projected_eq. cbn [snd]. rewrite (get_bare s n _ _ _ (plain_loss _) H2 Hb). apply same_cache. Qed.
  Lemma loss_bare s n r : n < 2 -> bare s n -> snd (lossf s r) = s.
  Proof.
    intros H2 Hb. unfold loss. pose proof (original_bare s n r H2 Hb) as E. destruct (read_original loss_original s r) as [a s1].
    cbn [snd] in E. subst s1. destruct a as [a|e]; [|reflexivity].
    pose proof (projected_bare s n r H2 Hb) as E. destruct (read_projected _ _ s r) as [b s2]. cbn [snd] in E. subst s2. now destruct b.
  Qed.
  Lemma losses_bare s n : n < 2 -> bare s n -> snd (lossesf s) = s.
  Proof.
    intros H2 Hb. unfold losses. pose proof (original_bare s n (l_primal s) H2 Hb) as E. destruct (read_original loss_original s _) as [a s1].
    cbn [snd] in E. subst s1. destruct a as [a|e]; [|reflexivity].
    pose proof (projected_bare s n (l_primal s) H2 Hb) as E. destruct (read_projected _ _ s _) as [b s2]. cbn [snd] in E. subst s2. destruct b as [b|e]; [|reflexivity].
    pose proof (loss_bare s n (l_primal s) H2 Hb) as E. destruct (lossf s (l_primal s)) as [c s3]. cbn [snd] in E. subst s3. now destruct c.
  Qed.
  Lemma remove_bare (c : cache (val L O R)) l : c_entries c = [] -> c_entries (remove_from_cache c (KeyList l)) = [].
  Proof.
    unfold remove_from_cache. cbn [key_items]. revert c. induction l as [|k l IH]; intros c H; cbn [fold_left]; [exact H|].
    apply IH. unfold remove_entry, dmem. rewrite H. cbn. exact H.
  Qed.
  Lemma lstep_bare s o n : n < 2 -> bare s n -> bare (stepf s o) n.
  Proof.
    intros H2 Hb. destruct o as [x r|r| | |p b|f|]; cbn [lstep].
    - now rewrite (forward_bare s n).
    - now rewrite (loss_bare s n).
    - unfold before_step. pose proof (losses_bare s n H2 Hb) as E. destruct (lossesf s) as [q s1]. cbn [snd] in E. subst s1.
      destruct q as [q|e]; cbn [snd]; [|exact Hb]. destruct Hb as [Hn He].
      split; [unfold caches_at; cbn [with_cache l_cache]; now rewrite remove_from_cache_level|]. now apply remove_bare.
    - exact Hb.
    - unfold change. destruct b; [|exact Hb]. destruct Hb as [Hn He].
      split; [unfold caches_at; cbn [l_cache]; now rewrite remove_from_cache_level|]. cbn [l_cache]. now apply remove_bare.
    - exact Hb.
    - destruct Hb as [Hn He]. split; [unfold caches_at; cbn [with_cache l_cache]; now rewrite reset_cache_level|].
      cbn [with_cache l_cache]. unfold reset_cache. cbn [andb]. rewrite He. exact He.
  Qed.
  Lemma lrun_bare os : forall s n, n < 2 -> bare s n -> bare (runf s os) n.
  Proof. induction os as [|o os IH]; intros s n H2 Hb; cbn; [exact Hb|]. apply IH; [exact H2|]. now apply lstep_bare. Qed.

  (** ** The levels as created *)
  Lemma level0_bare n p r f : bare (level0 (LInt n) p r f) n.
  Proof. split; reflexivity. Qed.
  Lemma uncached_outputs n p r f os x r' : n < 2 ->
    let s := runf (level0 (LInt n) p r f) os in fst (fwd s x r') = out_now s x r'.
  Proof.
    intros H2 s. pose proof (lrun_bare os _ n H2 (level0_bare n p r f)) as Hb. destruct (bare_tidy _ n Hb) as [T C].
    exact (proj1 (forward_current _ n x r' T C)).
  Qed.
  Lemma uncached_losses n p r f os r' : n < 2 ->
    let s := runf (level0 (LInt n) p r f) os in fst (lossf s r') = loss_now loss_original loss_projected_dual loss_projected_primal sub s r'.
  Proof.
    intros H2 s. pose proof (lrun_bare os _ n H2 (level0_bare n p r f)) as Hb. destruct (bare_tidy _ n Hb) as [T C].
    exact (proj1 (loss_current _ n r' T C)).
  Qed.
  Lemma careful_outputs n p r f os x r' : careful false os ->
    let s := runf (level0 (LInt n) p r f) os in fst (fwd s x r') = out_now s x r'.
  Proof.
    intros Hos s. destruct (bare_tidy _ n (level0_bare n p r f)) as [T C].
    destruct (careful_current os _ n false T (fun _ => C) Hos) as [T' C']. exact (proj1 (forward_current _ n x r' T' C')).
  Qed.
  Lemma careful_losses n p r f os r' : careful false os ->
    let s := runf (level0 (LInt n) p r f) os in fst (lossf s r') = loss_now loss_original loss_projected_dual loss_projected_primal sub s r'.
  Proof.
    intros Hos s. destruct (bare_tidy _ n (level0_bare n p r f)) as [T C].
    destruct (careful_current os _ n false T (fun _ => C) Hos) as [T' C']. exact (proj1 (loss_current _ n r' T' C')).
  Qed.

  (** ** Reachable levels are well formed *)
  Lemma lstep_wf s o n : wf (l_cache s) -> caches_at s n -> wf (l_cache (stepf s o)) /\ caches_at (stepf s o) n.
  Proof.
    intros Hw Hn.
    assert (G : forall t, grows s t -> wf (l_cache t) /\ caches_at t n).
    { intros t G. split; [now apply G|now apply (grows_at s)]. }
    destruct o as [x r|r| | |p b|f|]; cbn [lstep].
    - apply G. now apply (forward_grows s x r n).
    - apply G. now apply (loss_grows s r n).
    - unfold before_step. pose proof (losses_grows s n Hn) as Gl. destruct (lossesf s) as [q s1]. cbn [snd] in Gl.
      destruct (G _ Gl) as (Hw1 & Hn1). destruct q as [q|err]; [|split; assumption]. cbn [snd].
      split; [now apply remove_from_cache_wf|]. unfold caches_at; cbn [with_cache l_cache]; now rewrite remove_from_cache_level.
    - split; assumption.
    - unfold change. destruct b; cbn [l_cache]; [|split; assumption].
      split; [now apply remove_from_cache_wf|]. unfold caches_at; cbn [l_cache]; now rewrite remove_from_cache_level.
    - split; assumption.
    - split; [now apply reset_cache_wf|]. unfold caches_at; cbn [with_cache l_cache]; now rewrite reset_cache_level.
  Qed.
  Lemma lrun_wf os : forall s n, wf (l_cache s) -> caches_at s n -> wf (l_cache (runf s os)) /\ caches_at (runf s os) n.
  Proof.
    induction os as [|o os IH]; intros s n Hw Hn; cbn; [auto|]. destruct (lstep_wf s o n Hw Hn) as [a b]. now apply IH.
  Qed.
  Lemma reachable_output_frozen n p r f os0 os x r' o : 2 <= n -> Forall no_reset os ->
    let s := runf (level0 (LInt n) p r f) os0 in
    fst (fwd s x r') = Ok o -> fst (fwd (runf (snd (fwd s x r')) os) x r') = Ok o.
  Proof.
    intros H2 Hos s H. destruct (bare_tidy _ n (level0_bare n p r f)) as [(Hw & Hn & _) _].
    destruct (lrun_wf os0 _ n Hw Hn) as [Hw' Hn']. exact (output_frozen s n x r' o os Hw' Hn' H2 Hos H).
  Qed.
  Lemma reachable_before_step_frozen n p r f os0 os : 2 <= n -> Forall no_reset os ->
    let s := runf (level0 (LInt n) p r f) os0 in
    fst (before s) = Ok tt ->
    exists l, fst (lossf s (l_primal s)) = Ok l /\ fst (lossf (runf (snd (before s)) os) (l_primal s)) = Ok l.
  Proof.
    intros H2 Hos s H. destruct (bare_tidy _ n (level0_bare n p r f)) as [(Hw & Hn & _) _].
    destruct (lrun_wf os0 _ n Hw Hn) as [Hw' Hn']. exact (before_step_frozen s n os Hw' Hn' H2 Hos H).
  Qed.

  (** ** A new input *)
  Lemma new_input_dual s n x : caches_at s n -> stored (l_cache s) (forward_key x false) = None ->
    fst (fwd s x false) = out_now s x false.
  Proof.
    intros Hn E. rewrite forward_eq, E. cbn [fst compute snd].
    rewrite (get_miss _ _ _ _ n plain_forward Hn E). cbn [fst]. apply to_out_val.
  Qed.

  (** Only reading the output for an input stores something under its name. *)
  Lemma get_other (c : cache (val L O R)) k v a n x : plain a -> c_level c = LInt n -> x <> k ->
    stored (snd (get c k v a)) x = stored c x.
  Proof.
    intros Ha Hn Hx. destruct (stored c k) as [e|] eqn:E; [now rewrite (get_hit _ _ _ _ e Ha E)|].
    rewrite (get_miss _ _ _ _ n Ha Hn E). cbn [snd]. destruct v as [w|err]; [|reflexivity]. destruct (2 <=? n); [|reflexivity].
    unfold stored. cbn [with_entries c_entries]. now apply dset_get_other.
  Qed.
  Definition absent s k : Prop := stored (l_cache s) k = None.
  Lemma forward_absent s n x r y r' : caches_at s n -> (y, r') <> (x, r) -> absent s (forward_key x r) ->
    absent (snd (fwd s y r')) (forward_key x r).
  Proof.
    intros Hn Hxy H. rewrite forward_eq. destruct (stored (l_cache s) (forward_key y r')) as [e|]; [exact H|]. cbn [snd].
    unfold absent. cbn [with_cache l_cache].
    assert (Hc : c_level (snd (compute out_dual out_primal root s y r')) = LInt n) by exact (grows_at _ _ _ (compute_grows s y r' n Hn) Hn).
    rewrite (get_other _ _ _ _ n _ plain_forward Hc).
    - rewrite compute_cache. destruct r'; [|exact H]. rewrite (get_other _ _ _ _ n _ plain_default Hn); [exact H|discriminate].
    - intros E. apply forward_key_inj in E as [-> ->]. now apply Hxy.
  Qed.
  Lemma original_absent s n x r r' : caches_at s n -> absent s (forward_key x r) -> absent (snd (read_original loss_original s r')) (forward_key x r).
  Proof.
    intros Hn H. rewrite original_eq. unfold absent. cbn [snd with_cache l_cache].
    rewrite (get_other _ _ _ _ n _ (plain_loss _) Hn); [exact H|discriminate].
  Qed.
  Lemma projected_absent s n x r r' : caches_at s n -> absent s (forward_key x r) ->
    absent (snd (read_projected loss_projected_dual loss_projected_primal s r')) (forward_key x r).
  Proof.
    intros Hn H. rewrite projected_eq. unfold absent. cbn [snd with_cache l_cache].
    rewrite (get_other _ _ _ _ n _ (plain_loss _) Hn); [exact H|discriminate].
  Qed.
  Lemma loss_absent s n x r r' : caches_at s n -> absent s (forward_key x r) -> absent (snd (lossf s r')) (forward_key x r).
  Proof.
    intros Hn H. unfold loss. pose proof (original_absent s n x r r' Hn H) as A. pose proof (original_grows s r' n Hn) as G.
    destruct (read_original loss_original s r') as [a s1]. cbn [snd] in *. destruct a as [a|e]; [|exact A].
    pose proof (projected_absent s1 n x r r' (grows_at _ _ _ G Hn) A) as B.
    destruct (read_projected _ _ s1 r') as [b s2]. cbn [snd] in B. destruct b; exact B.
  Qed.
  Lemma losses_absent s n x r : caches_at s n -> absent s (forward_key x r) -> absent (snd (lossesf s)) (forward_key x r).
  Proof.
    intros Hn H. unfold losses. pose proof (original_absent s n x r (l_primal s) Hn H) as A. pose proof (original_grows s (l_primal s) n Hn) as G.
    destruct (read_original loss_original s (l_primal s)) as [a s1]. cbn [snd] in *. destruct a as [a|e]; [|exact A].
    pose proof (grows_at _ _ _ G Hn) as Hn1.
    pose proof (projected_absent s1 n x r (l_primal s) Hn1 A) as B. pose proof (projected_grows s1 (l_primal s) n Hn1) as G'.
    destruct (read_projected _ _ s1 _) as [b s2]. cbn [snd] in *. destruct b as [b|e]; [|exact B].
    pose proof (loss_absent s2 n x r (l_primal s) (grows_at _ _ _ G' Hn1) B) as C.
    destruct (lossf s2 (l_primal s)) as [c s3]. cbn [snd] in C. destruct c; exact C.
  Qed.
  Lemma removed_absent s l x : wf (l_cache s) -> absent s x -> stored (remove_from_cache (l_cache s) (KeyList l)) x = None.
  Proof. intros Hw H. rewrite remove_from_cache_stored by exact Hw. destruct (smem _ _); [reflexivity|exact H]. Qed.
  Lemma lstep_absent s o n x r : wf (l_cache s) -> caches_at s n -> o <> LForward x r -> absent s (forward_key x r) ->
    absent (stepf s o) (forward_key x r).
  Proof.
    intros Hw Hn Ho H. destruct o as [y r'|r'| | |p b|f|]; cbn [lstep].
    - apply (forward_absent s n); [exact Hn| |exact H]. intros E. apply Ho. now injection E as -> ->.
    - now apply (loss_absent s n).
    - unfold before_step. pose proof (losses_absent s n x r Hn H) as A. pose proof (losses_grows s n Hn) as G.
      destruct (lossesf s) as [q s1]. cbn [snd] in *. destruct q as [q|e]; [|exact A]. cbn [snd].
      unfold absent. cbn [with_cache l_cache]. apply removed_absent; [now apply G|exact A].
    - exact H.
    - unfold change, absent. destruct b; cbn [l_cache]; [|exact H]. now apply removed_absent.
    - exact H.
    - unfold absent. cbn [with_cache l_cache]. rewrite reset_cache_stored by exact Hw. unfold absent in H. now rewrite H.
  Qed.
  Lemma lrun_absent os : forall s n x r, wf (l_cache s) -> caches_at s n -> ~ In (LForward x r) os -> absent s (forward_key x r) ->
    absent (runf s os) (forward_key x r).
  Proof.
    induction os as [|o os IH]; intros s n x r Hw Hn Hos H; cbn; [exact H|].
    destruct (lstep_wf s o n Hw Hn) as [Hw' Hn']. apply (IH _ n); [exact Hw'|exact Hn'| |].
    - intros Hin. apply Hos. now right.
    - apply (lstep_absent s o n); [exact Hw|exact Hn| |exact H]. intros ->. apply Hos. now left.
  Qed.
  Lemma first_dual_output n p r f os x : ~ In (LForward x false) os ->
    let s := runf (level0 (LInt n) p r f) os in fst (fwd s x false) = out_now s x false.
  Proof.
    intros Hos s. destruct (bare_tidy _ n (level0_bare n p r f)) as [(Hw & Hn & _) _].
    destruct (lrun_wf os _ n Hw Hn) as [_ Hn']. apply (new_input_dual s n); [exact Hn'|].
    apply (lrun_absent os _ n); [exact Hw|exact Hn|exact Hos|reflexivity].
  Qed.

  (** Reads leave the parameters and the contents alone. *)
  Definition reading (o : lop D W L X) : Prop := match o with LForward _ _ | LLoss _ | LBeforeStep | LAfterStep => True | _ => False end.
  Lemma reading_careful os : Forall reading os -> careful false os.
  Proof.
    induction os as [|o os IH]; intros H; cbn [careful]; [reflexivity|]. apply Forall_cons_iff in H as [Ho H].
    destruct o; try contradiction; auto.
  Qed.
  Lemma reading_same os : forall s n, Forall reading os -> wf (l_cache s) -> caches_at s n ->
    l_params (runf s os) = l_params s /\ l_inputs (runf s os) = l_inputs s.
  Proof.
    induction os as [|o os IH]; intros s n H Hw Hn; [auto|]. apply Forall_cons_iff in H as [Ho H].
    cbn [lrun fold_left]. change (fold_left stepf os (stepf s o)) with (runf (stepf s o) os).
    destruct (lstep_wf s o n Hw Hn) as [Hw' Hn']. destruct (IH _ n H Hw' Hn') as [A B]. rewrite A, B.
    destruct o as [x r|r| | |p b|f|]; try contradiction; cbn [lstep].
    - destruct (forward_grows s x r n Hn) as (a & _ & c & _). auto.
    - destruct (loss_grows s r n Hn) as (a & _ & c & _). auto.
    - unfold before_step. destruct (losses_grows s n Hn) as (a & _ & c & _). destruct (lossesf s) as [q s1]. cbn [snd] in *.
      destruct q; auto.
    - auto.
  Qed.
  Lemma reads_only_output n p r f os x r' : Forall reading os ->
    fst (fwd (runf (level0 (LInt n) p r f) os) x r') = out_now (@level0 D W L X O R (LInt n) p r f) x r'.
  Proof.
    intros H. rewrite (careful_outputs n p r f os x r' (reading_careful os H)).
    destruct (bare_tidy _ n (level0_bare n p r f)) as [(Hw & Hn & _) _].
    destruct (reading_same os _ n H Hw Hn) as [A B]. unfold output_now, content. rewrite A, B. reflexivity.
  Qed.
End Proofs.

(** ** Witnesses: the output is the parameter plus the input, the loss the parameter. *)
Definition ex_dual (d : nat) (x : option nat) : result nat := Ok (d + match x with Some v => v | None => 0 end)%nat.
Definition ex_primal (w l : nat) (x : option nat) : result nat := Ok (w * l + match x with Some v => v | None => 0 end)%nat.
Definition ex_original (r : bool) : result nat := Ok 10%nat.
Definition ex_projected (d : nat) : result nat := Ok d.
Definition ex_level (n : Z) : level nat nat nat nat nat nat := level0 (LInt n) (Params 1 1 4)%nat false (fun _ => 5%nat).
Definition ex_run (n : Z) (os : list (lop nat nat nat nat)) : level nat nat nat nat nat nat :=
  lrun ex_dual ex_primal Nat.sqrt ex_original ex_projected ex_projected Nat.sub (ex_level n) os.
Definition ex_new : lop nat nat nat nat := LChange (Params 2 3 9)%nat false.

Lemma outputs_follow_refuted : exists os,
  let s := ex_run 2 os in
  fst (forward ex_dual ex_primal Nat.sqrt s Whole false) = Ok 1%nat /\
  output_now ex_dual ex_primal Nat.sqrt s Whole false = Ok 2%nat.
Proof. exists [LForward Whole false; LBeforeStep; ex_new; LAfterStep]. split; reflexivity. Qed.
Lemma losses_refreshed_refuted : exists os,
  let s := ex_run 2 os in
  fst (loss ex_original ex_projected ex_projected Nat.sub s false) = Ok 9%nat /\
  loss_now ex_original ex_projected ex_projected Nat.sub s false = Ok 8%nat.
Proof. exists [LBeforeStep; ex_new; LAfterStep; LBeforeStep]. split; reflexivity. Qed.
Lemma first_primal_output_refuted : exists os, ~ In (LForward Whole true) os /\
  let s := ex_run 2 os in
  fst (forward ex_dual ex_primal Nat.sqrt s Whole true) = Ok 6%nat /\
  output_now ex_dual ex_primal Nat.sqrt s Whole true = Ok 9%nat.
Proof.
  exists [LForward (Object "a") true; ex_new]. split; [|split; reflexivity].
  intros [H|[H|[]]]; [discriminate H|discriminate H].
Qed.
Lemma contents_refuted : exists os, Forall (fun o => match o with LForward _ _ | LInputs _ => True | _ => False end) os /\
  let s := ex_run 2 os in
  fst (forward ex_dual ex_primal Nat.sqrt s (Object "a") false) = Ok 6%nat /\
  output_now ex_dual ex_primal Nat.sqrt s (Object "a") false = Ok 8%nat.
Proof.
  exists [LForward (Object "a") false; LInputs (fun _ => 7%nat)]. split; [|split; reflexivity]. repeat constructor.
Qed.
