(** Proofs for [PropertiesLazy]. *)
From Verif Require Import Base BaseProofs Factory FactoryProofs Lazy LazySpec.
From Coq Require Import Lia.
Open Scope string_scope.
Open Scope list_scope.

(** ** Equality of states *)
Definition value_eqb (a b : value) : bool :=
  match a, b with
  | VModule x, VModule y => String.eqb x y
  | VObject x y, VObject x' y' => String.eqb x x' && String.eqb y y'
  | _, _ => false
  end.
Lemma value_eqb_sound : forall a b, value_eqb a b = true -> a = b.
Proof.
  intros [x | x y] [x' | x' y'] H; cbn in H; try discriminate H.
  - apply String.eqb_eq in H. now subst.
  - apply andb_prop in H as [H1 H2]. apply String.eqb_eq in H1. apply String.eqb_eq in H2. now subst.
Qed.
Definition option_eqb (a b : option value) : bool :=
  match a, b with None, None => true | Some x, Some y => value_eqb x y | _, _ => false end.
Lemma option_eqb_sound : forall a b, option_eqb a b = true -> a = b.
Proof.
  intros [x |] [y |] H; cbn in H; try discriminate H; [| reflexivity].
  apply value_eqb_sound in H. now subst.
Qed.
Definition entry_eqb (a b : string * (bool * option value)) : bool :=
  String.eqb (fst a) (fst b) && Bool.eqb (fst (snd a)) (fst (snd b)) && option_eqb (snd (snd a)) (snd (snd b)).
Fixpoint state_eqb (a b : state) : bool :=
  match a, b with [], [] => true | x :: a, y :: b => entry_eqb x y && state_eqb a b | _, _ => false end.
Lemma state_eqb_sound : forall a b, state_eqb a b = true -> a = b.
Proof.
  induction a as [| [k [l v]] a IH]; intros [| [k' [l' v']] b] H; cbn in H; try discriminate H; [reflexivity |].
  apply andb_prop in H as [H1 H2]. apply IH in H2. subst b.
  unfold entry_eqb in H1. cbn in H1. apply andb_prop in H1 as [H1 H3]. apply andb_prop in H1 as [H1 H4].
  apply String.eqb_eq in H1. apply Bool.eqb_prop in H4. apply option_eqb_sound in H3. now subst.
Qed.
Definition known (R : list state) (s : state) : bool := existsb (state_eqb s) R.
Lemma known_In : forall R s, known R s = true -> In s R.
Proof.
  intros R s H. apply existsb_exists in H as [x [Hx E]]. apply state_eqb_sound in E. now subst.
Qed.

(** ** Runs that stay in a finite set *)
Section Closed.
Context {U : Type} (step : state -> U -> result value * state) (acts : list U) (R : list state).
Fixpoint explore (n : nat) (seen todo : list state) : list state :=
  match n with
  | O => seen
  | S n' =>
      match todo with
      | [] => seen
      | s :: todo' =>
          let new := fold_left (fun l u => let s' := snd (step s u) in
                                if known seen s' || known l s' then l else s' :: l) acts [] in
          explore n' (new ++ seen) (todo' ++ new)
      end
  end.
Fixpoint steps (s : state) (us : list U) : state :=
  match us with [] => s | u :: us' => steps (snd (step s u)) us' end.
Lemma steps_app : forall us vs s, steps s (us ++ vs) = steps (steps s us) vs.
Proof. induction us as [| u us IH]; intros vs s; cbn; [reflexivity | apply IH]. Qed.
(** Every use is, for every state, like one of [acts]. *)
Hypothesis covered : forall u, exists u', In u' acts /\ forall s, step s u = step s u'.
Hypothesis closed : forallb (fun s => forallb (fun u => known R (snd (step s u))) acts) R = true.
Lemma steps_In : forall us s, In s R -> In (steps s us) R.
Proof.
  induction us as [| u us IH]; intros s Hs; cbn; [exact Hs |]. apply IH.
  destruct (covered u) as [u' [Hu E]]. rewrite E.
  rewrite forallb_forall in closed. specialize (closed s Hs). rewrite forallb_forall in closed.
  exact (known_In _ _ (closed u' Hu)).
Qed.
End Closed.

(** ** Names that the package does not have *)
Definition attributes (t : table) (p : string) : list string :=
  flat_map (fun x => match m_parent (snd x) with Some (q, a) => if String.eqb q p then [a] else [] | None => [] end) t.
Lemma child_none : forall t p n, smem n (attributes t p) = false -> child t p n = None.
Proof.
  intros t p n H. unfold child. destruct (find _ t) as [x |] eqn:E; [| reflexivity]. exfalso.
  apply find_some in E as [Hx E]. destruct (m_parent (snd x)) as [[q a] |] eqn:Ep; [| discriminate E].
  apply andb_prop in E as [E1 E2]. apply String.eqb_eq in E2. subst a.
  assert (Hin : In n (attributes t p)).
  { unfold attributes. apply in_flat_map. exists x. split; [exact Hx |]. rewrite Ep, E1. now left. }
  apply smem_In in Hin. rewrite Hin in H. discriminate H.
Qed.
Lemma lookup_unknown : forall f t s p n d stub,
  dget t p = Some d -> m_stub d = Some stub -> smem n (attributes t p) = false -> smem n (dkeys stub) = false ->
  lookup (S f) t s p n = (Err EAttributeError, s).
Proof.
  intros f t s p n d stub Hd Hs Ha Hk. cbn [lookup]. rewrite Hd, Hs. unfold attribute. rewrite (child_none _ _ _ Ha).
  destruct (dget stub n) as [v |] eqn:E; [| reflexivity]. exfalso.
  assert (Hin : In n (dkeys stub)).
  { clear -E. induction stub as [| [k w] l IH]; cbn in *; [discriminate E |].
    destruct (String.eqb k n) eqn:Ek; [left; now apply String.eqb_eq in Ek | right; exact (IH E)]. }
  apply smem_In in Hin. rewrite Hin in Hk. discriminate Hk.
Qed.

(** ** The levels *)
Definition level_names : list string :=
  ["KPCA"; "LSSVM"; "PPCA"; "Ridge"; "Level"; "MVKPCA"; "factory"; "single_view"; "multi_view"; "_View"; "_Level"; "_KPCA"; "_PPCA"].
Definition level_acts : list level_use :=
  map Use (level_names ++ ["?"]) ++ map Create ["kpca"; "lssvm"; "ridge"; "?"] ++ [ImportModels].
Lemma level_unknown : forall s n, smem n level_names = false -> level_step s (Use n) = (Err EAttributeError, s).
Proof.
  intros s n H. cbn [level_step]. unfold fuel.
  destruct (dget level_table "level") as [d |] eqn:E; [| discriminate E].
  destruct (m_stub d) as [stub |] eqn:Es; [| vm_compute in E; injection E as <-; discriminate Es].
  assert (Ha : attributes level_table "level" = ["single_view"; "multi_view"; "_View"; "_Level"; "_KPCA"; "_PPCA"; "factory"]) by (vm_compute; reflexivity).
  assert (Hk : dkeys stub = ["KPCA"; "LSSVM"; "PPCA"; "Ridge"; "Level"; "MVKPCA"; "factory"]).
  { vm_compute in E. injection E as <-. cbn in Es. injection Es as <-. reflexivity. }
  apply (lookup_unknown _ _ _ _ _ d stub E Es).
  - rewrite Ha. apply not_true_iff_false. intros X. apply not_true_iff_false in H. apply H.
    apply smem_In in X. apply smem_In. cbn in X |- *. tauto.
  - rewrite Hk. apply not_true_iff_false. intros X. apply not_true_iff_false in H. apply H.
    apply smem_In in X. apply smem_In. cbn in X |- *. tauto.
Qed.
Lemma level_factory_cases : forall ty,
  (lower ty = "kpca" /\ level_factory ty = Ok "KPCA") \/ (lower ty = "lssvm" /\ level_factory ty = Ok "LSSVM") \/
  (lower ty = "ridge" /\ level_factory ty = Ok "Ridge") \/
  (existsb (String.eqb (lower ty)) ["kpca"; "lssvm"; "ridge"] = false /\ level_factory ty = Err ENameError).
Proof.
  intros ty. unfold level_factory. destruct (existsb (String.eqb (lower ty)) ["kpca"; "lssvm"; "ridge"]) eqn:E.
  - apply existsb_exists in E as [x [Hx Ex]]. apply String.eqb_eq in Ex.
    unfold getattr_ci. cbn in Hx. destruct Hx as [<- | [<- | [<- | []]]]; rewrite Ex.
    + left. split; vm_compute; reflexivity.
    + right. left. split; vm_compute; reflexivity.
    + right. right. left. split; vm_compute; reflexivity.
  - right. right. right. split; reflexivity.
Qed.
Lemma level_create_ext : forall s ty ty', level_factory ty = level_factory ty' -> level_step s (Create ty) = level_step s (Create ty').
Proof. intros s ty ty' H. unfold level_step. rewrite H. reflexivity. Qed.
Lemma level_covered : forall u, exists u', In u' level_acts /\ (forall s, level_step s u = level_step s u') /\
  asks "LSSVM" u = asks "LSSVM" u' /\ asks "Ridge" u = asks "Ridge" u'.
Proof.
  intros [n | ty |].
  - destruct (smem n level_names) eqn:E.
    + exists (Use n). split; [| split; [reflexivity | split; reflexivity]].
      apply in_or_app. left. apply in_map. apply in_or_app. left. now apply smem_In.
    + exists (Use "?"). split; [apply in_or_app; left; apply in_map; apply in_or_app; right; now left |].
      split; [intros s; rewrite (level_unknown s n E), (level_unknown s "?" eq_refl); reflexivity |].
      assert (N : forall c, In c level_names -> String.eqb n c = false).
      { intros c Hc. apply String.eqb_neq. intros ->. apply smem_In in Hc. rewrite Hc in E. discriminate E. }
      split; cbn [asks]; rewrite N; try reflexivity; cbn; tauto.
  - destruct (level_factory_cases ty) as [[L F] | [[L F] | [[L F] | [L F]]]].
    + exists (Create "kpca"). split; [cbn; tauto |]. split; [intros s; apply level_create_ext; rewrite F; reflexivity |].
      cbn [asks]. rewrite L. split; reflexivity.
    + exists (Create "lssvm"). split; [cbn; tauto |]. split; [intros s; apply level_create_ext; rewrite F; reflexivity |].
      cbn [asks]. rewrite L. split; reflexivity.
    + exists (Create "ridge"). split; [cbn; tauto |]. split; [intros s; apply level_create_ext; rewrite F; reflexivity |].
      cbn [asks]. rewrite L. split; reflexivity.
    + exists (Create "?"). split; [cbn; tauto |]. split; [intros s; apply level_create_ext; rewrite F; reflexivity |].
      cbn [asks existsb] in *. apply orb_false_elim in L as [_ L]. apply orb_false_elim in L as [L1 L]. apply orb_false_elim in L as [L2 _].
      change (lower "LSSVM") with "lssvm". change (lower "Ridge") with "ridge". rewrite L1, L2. split; reflexivity.
  - exists ImportModels. split; [apply in_or_app; right; apply in_or_app; right; now left |]. repeat split; reflexivity.
Qed.
Definition level_states : list state := Eval vm_compute in explore level_step level_acts 500 [level_start] [level_start].
Lemma level_closed : forallb (fun s => forallb (fun u => known level_states (snd (level_step s u))) level_acts) level_states = true.
Proof. vm_compute. reflexivity. Qed.
Lemma level_start_In : In level_start level_states.
Proof. apply known_In. vm_compute. reflexivity. Qed.
Lemma level_run_steps : forall us s, level_run s us = steps level_step s us.
Proof. induction us as [| u us IH]; intros s; cbn [level_run steps]; [reflexivity | apply IH]. Qed.
Lemma level_run_app : forall us vs s, level_run s (us ++ vs) = level_run (level_run s us) vs.
Proof. intros us vs s. rewrite !level_run_steps. apply steps_app. Qed.
Lemma level_in : forall us s, In s level_states -> In (level_run s us) level_states.
Proof.
  intros us s H. rewrite level_run_steps. apply (steps_In level_step level_acts); [| exact level_closed | exact H].
  intros u. destruct (level_covered u) as [u' [H1 [H2 _]]]. exists u'. split; assumption.
Qed.
Lemma level_reached : forall us, In (level_run level_start us) level_states.
Proof. intros us. apply level_in. exact level_start_In. Qed.
Definition res_eqb (a b : result value) : bool :=
  match a, b with
  | Ok x, Ok y => value_eqb x y
  | Err ETypeError, Err ETypeError | Err EAttributeError, Err EAttributeError | Err ENameError, Err ENameError => true
  | Err (EOther m), Err (EOther n) => Nat.eqb m n
  | _, _ => false
  end.
Lemma res_eqb_sound : forall a b, res_eqb a b = true -> a = b.
Proof.
  intros [x | e] [y | e'] H; cbn in H; try discriminate H.
  - apply value_eqb_sound in H. now subst.
  - destruct e; discriminate H.
  - destruct e, e'; try discriminate H; try reflexivity. apply Nat.eqb_eq in H. now subst.
Qed.
(** A check of every state that can be reached. *)
Lemma level_all : forall (P : state -> bool), forallb P level_states = true -> forall us, P (level_run level_start us) = true.
Proof. intros P H us. rewrite forallb_forall in H. apply H. apply level_reached. Qed.

Lemma level_check : forall f g : state -> result value,
  forallb (fun s => res_eqb (f s) (g s)) level_states = true -> forall us, f (level_run level_start us) = g (level_run level_start us).
Proof. intros f g H us. apply res_eqb_sound. exact (level_all (fun s => res_eqb (f s) (g s)) H us). Qed.

Lemma level_always : forall us c, In c ["KPCA"; "PPCA"; "Ridge"] ->
  fst (level_step (level_run level_start us) (Use c)) = Ok (level_class c).
Proof.
  intros us c Hc. apply res_eqb_sound.
  assert (H : forallb (fun s => forallb (fun c => res_eqb (fst (level_step s (Use c))) (Ok (level_class c))) ["KPCA"; "PPCA"; "Ridge"]) level_states = true) by (vm_compute; reflexivity).
  pose proof (level_all _ H us) as G. rewrite forallb_forall in G. exact (G c Hc).
Qed.
Lemma level_mvkpca : forall us, fst (level_step (level_run level_start us) (Use "MVKPCA")) = Ok (VObject "level.multi_view.MVKPCA" "MVKPCA").
Proof. apply (level_check (fun s => fst (level_step s (Use "MVKPCA"))) (fun _ => Ok (VObject "level.multi_view.MVKPCA" "MVKPCA"))). vm_compute. reflexivity. Qed.
Lemma level_fact : forall us, fst (level_step (level_run level_start us) (Use "factory")) = Ok (VObject "level.factory" "factory").
Proof. apply (level_check (fun s => fst (level_step s (Use "factory"))) (fun _ => Ok (VObject "level.factory" "factory"))). vm_compute. reflexivity. Qed.
Lemma level_models : forall us, fst (level_step (level_run level_start us) ImportModels) = Ok (VModule "model.Model").
Proof. apply (level_check (fun s => fst (level_step s ImportModels)) (fun _ => Ok (VModule "model.Model"))). vm_compute. reflexivity. Qed.
Lemma level_level : forall us,
  fst (level_step (level_run level_start us) (Use "Level")) = Err EAttributeError \/
  fst (level_step (level_run level_start us) (Use "Level")) = Ok (VModule "level.single_view.Level").
Proof.
  intros us.
  assert (H : forallb (fun s => res_eqb (fst (level_step s (Use "Level"))) (Err EAttributeError) || res_eqb (fst (level_step s (Use "Level"))) (Ok (VModule "level.single_view.Level"))) level_states = true) by (vm_compute; reflexivity).
  pose proof (level_all _ H us) as G. apply orb_prop in G as [G | G]; apply res_eqb_sound in G; [left | right]; exact G.
Qed.

(** What is bound under [LSSVM] tells which came first. *)
Definition lssvm_of (s : state) : option value := bound s "level.single_view.LSSVM".
Definition lssvm_value : value := level_class "LSSVM".
Definition lssvm_module : value := VModule "level.single_view.LSSVM".
Definition lssvm_next (v : option value) (u : level_use) : option value :=
  match v with
  | Some w => Some w
  | None => if asks "LSSVM" u then Some lssvm_value else if asks "Ridge" u then Some lssvm_module else None
  end.
Lemma lssvm_step : forall s u, In s level_states -> lssvm_of (snd (level_step s u)) = lssvm_next (lssvm_of s) u.
Proof.
  intros s u Hs. destruct (level_covered u) as [u' [Hu [E [A1 A2]]]].
  rewrite E. unfold lssvm_next. rewrite A1, A2. fold (lssvm_next (lssvm_of s) u').
  apply option_eqb_sound.
  assert (H : forallb (fun s => forallb (fun u => option_eqb (lssvm_of (snd (level_step s u))) (lssvm_next (lssvm_of s) u)) level_acts) level_states = true) by (vm_compute; reflexivity).
  rewrite forallb_forall in H. specialize (H s Hs). rewrite forallb_forall in H. exact (H u' Hu).
Qed.
Fixpoint lssvm_after (v : option value) (us : list level_use) : option value :=
  match us with [] => v | u :: us' => lssvm_after (lssvm_next v u) us' end.
Lemma lssvm_run : forall us s, In s level_states -> lssvm_of (level_run s us) = lssvm_after (lssvm_of s) us.
Proof.
  induction us as [| u us IH]; intros s Hs; cbn [level_run lssvm_after]; [reflexivity |].
  rewrite IH by exact (level_in [u] s Hs). rewrite lssvm_step by exact Hs. reflexivity.
Qed.
Lemma lssvm_after_some : forall us v, lssvm_after (Some v) us = Some v.
Proof. induction us as [| u us IH]; intros v; cbn; [reflexivity | apply IH]. Qed.
Lemma lssvm_after_none : forall us,
  match lssvm_after None us with Some (VModule _) => true | _ => false end = ridge_first us.
Proof.
  induction us as [| u us IH]; cbn [lssvm_after ridge_first lssvm_next]; [reflexivity |].
  destruct (asks "LSSVM" u); [rewrite lssvm_after_some; reflexivity |].
  destruct (asks "Ridge" u); [rewrite lssvm_after_some; reflexivity | exact IH].
Qed.
Lemma lssvm_start : lssvm_of level_start = None.
Proof. vm_compute. reflexivity. Qed.
Definition lssvm_broken (s : state) : bool := match lssvm_of s with Some (VModule _) => true | _ => false end.
Lemma lssvm_broken_iff : forall us, lssvm_broken (level_run level_start us) = ridge_first us.
Proof.
  intros us. unfold lssvm_broken. rewrite lssvm_run by exact level_start_In. rewrite lssvm_start. apply lssvm_after_none.
Qed.
Lemma lssvm_found : forall us,
  fst (level_step (level_run level_start us) (Use "LSSVM")) =
    Ok (if lssvm_broken (level_run level_start us) then VModule "level.single_view.LSSVM" else level_class "LSSVM").
Proof.
  apply (level_check (fun s => fst (level_step s (Use "LSSVM")))
           (fun s => Ok (if lssvm_broken s then VModule "level.single_view.LSSVM" else level_class "LSSVM"))). vm_compute. reflexivity.
Qed.
Lemma level_lssvm : forall us,
  fst (level_step (level_run level_start us) (Use "LSSVM")) = Ok (if ridge_first us then VModule "level.single_view.LSSVM" else level_class "LSSVM").
Proof. intros us. rewrite lssvm_found, lssvm_broken_iff. reflexivity. Qed.
Lemma create_kpca : forall us, fst (level_step (level_run level_start us) (Create "kpca")) = Ok (level_class "KPCA").
Proof. apply (level_check (fun s => fst (level_step s (Create "kpca"))) (fun _ => Ok (level_class "KPCA"))). vm_compute. reflexivity. Qed.
Lemma create_ridge : forall us, fst (level_step (level_run level_start us) (Create "ridge")) = Ok (level_class "Ridge").
Proof. apply (level_check (fun s => fst (level_step s (Create "ridge"))) (fun _ => Ok (level_class "Ridge"))). vm_compute. reflexivity. Qed.
Lemma create_unknown : forall us, fst (level_step (level_run level_start us) (Create "?")) = Err ENameError.
Proof. apply (level_check (fun s => fst (level_step s (Create "?"))) (fun _ => Err ENameError)). vm_compute. reflexivity. Qed.
Lemma create_lssvm : forall us,
  fst (level_step (level_run level_start us) (Create "lssvm")) =
    if lssvm_broken (level_run level_start us) then Err ETypeError else Ok (level_class "LSSVM").
Proof.
  apply (level_check (fun s => fst (level_step s (Create "lssvm"))) (fun s => if lssvm_broken s then Err ETypeError else Ok (level_class "LSSVM"))).
  vm_compute. reflexivity.
Qed.
Lemma level_create : forall us ty,
  fst (level_step (level_run level_start us) (Create ty)) =
    bind (level_factory ty) (fun c => if String.eqb c "LSSVM" && ridge_first us then Err ETypeError else Ok (level_class c)).
Proof.
  intros us ty. destruct (level_factory_cases ty) as [[_ F] | [[_ F] | [[_ F] | [_ F]]]]; rewrite F; cbn [bind].
  - rewrite (level_create_ext _ ty "kpca") by exact F. rewrite create_kpca. reflexivity.
  - rewrite (level_create_ext _ ty "lssvm") by exact F. rewrite create_lssvm, lssvm_broken_iff. reflexivity.
  - rewrite (level_create_ext _ ty "ridge") by exact F. rewrite create_ridge. reflexivity.
  - rewrite (level_create_ext _ ty "?") by exact F. rewrite create_unknown. reflexivity.
Qed.

(** What a name was found to be, it stays. *)
Lemma every : forall (A B : Type) (P : A -> B -> bool) (la : list A) (lb : list B),
  forallb (fun a => forallb (P a) lb) la = true -> forall a b, In a la -> In b lb -> P a b = true.
Proof.
  intros A B P la lb H a b Ha Hb. rewrite forallb_forall in H. specialize (H a Ha). cbn beta in H.
  rewrite forallb_forall in H. exact (H b Hb).
Qed.
Section Settled.
Context (step : state -> level_use -> result value * state).
Definition settled (n : string) (v : value) (s : state) : bool :=
  res_eqb (fst (step s (Use n))) (Ok v) && state_eqb (snd (step s (Use n))) s.
Definition found (s : state) (n : string) : option value := match fst (step s (Use n)) with Ok v => Some v | Err _ => None end.
Definition settles (s : state) (n : string) : bool :=
  match found s n with Some v => settled n v (snd (step s (Use n))) | None => true end.
Definition remains (s : state) (n : string) : bool :=
  match found s n with
  | Some v => if settled n v s then forallb (fun u => settled n v (snd (step s u))) level_acts else true
  | None => true
  end.
Lemma found_ok : forall s n v, fst (step s (Use n)) = Ok v -> found s n = Some v.
Proof. intros s n v E. unfold found. rewrite E. reflexivity. Qed.
Lemma settled_ok : forall s n v, settled n v s = true -> fst (step s (Use n)) = Ok v.
Proof. intros s n v E. unfold settled in E. apply andb_prop in E as [E _]. exact (res_eqb_sound _ _ E). Qed.
Lemma settles_ok : forall s n v, settles s n = true -> fst (step s (Use n)) = Ok v -> settled n v (snd (step s (Use n))) = true.
Proof. intros s n v H E. apply found_ok in E. unfold settles in H. rewrite E in H. exact H. Qed.
Lemma remains_ok : forall s n v u, remains s n = true -> settled n v s = true -> In u level_acts -> settled n v (snd (step s u)) = true.
Proof.
  intros s n v u H E Hu. pose proof (found_ok _ _ _ (settled_ok _ _ _ E)) as F. unfold remains in H. rewrite F, E in H.
  rewrite forallb_forall in H. exact (H u Hu).
Qed.
End Settled.
Lemma settles_all : forallb (fun s => forallb (settles level_step s) level_names) level_states = true.
Proof. vm_compute. reflexivity. Qed.
Lemma remains_all : forallb (fun s => forallb (remains level_step s) level_names) level_states = true.
Proof. vm_compute. reflexivity. Qed.
Lemma settled_known : forall s n v, settled level_step n v s = true -> smem n level_names = true.
Proof.
  intros s n v E. destruct (smem n level_names) eqn:En; [reflexivity |]. apply settled_ok in E.
  rewrite (level_unknown s n En) in E. discriminate E.
Qed.
Lemma settled_after : forall s n v, In s level_states -> fst (level_step s (Use n)) = Ok v ->
  settled level_step n v (snd (level_step s (Use n))) = true.
Proof.
  intros s n v Hs E. destruct (smem n level_names) eqn:En.
  - apply smem_In in En. exact (settles_ok level_step s n v (every _ _ (settles level_step) _ _ settles_all s n Hs En) E).
  - rewrite (level_unknown s n En) in E. discriminate E.
Qed.
Lemma settled_stays : forall s n v u, In s level_states -> settled level_step n v s = true ->
  settled level_step n v (snd (level_step s u)) = true.
Proof.
  intros s n v u Hs E. pose proof (settled_known _ _ _ E) as En. apply smem_In in En.
  destruct (level_covered u) as [u' [Hu [Eu _]]]. rewrite Eu.
  exact (remains_ok level_step s n v u' (every _ _ (remains level_step) _ _ remains_all s n Hs En) E Hu).
Qed.
Lemma settled_run : forall us s n v, In s level_states -> settled level_step n v s = true -> settled level_step n v (level_run s us) = true.
Proof.
  induction us as [| u us IH]; intros s n v Hs E; cbn [level_run]; [exact E |].
  apply IH; [exact (level_in [u] s Hs) | now apply settled_stays].
Qed.
Lemma level_in1 : forall s u, In s level_states -> In (snd (level_step s u)) level_states.
Proof. intros s u Hs. exact (level_in [u] s Hs). Qed.
Lemma level_stable_from : forall s vs n v, In s level_states -> fst (level_step s (Use n)) = Ok v ->
  fst (level_step (level_run (snd (level_step s (Use n))) vs) (Use n)) = Ok v.
Proof.
  intros s vs n v Hs E. apply (settled_ok level_step). apply settled_run; [apply level_in1; exact Hs |].
  exact (settled_after s n v Hs E).
Qed.
Lemma level_run_snoc : forall us s u vs, level_run s (us ++ u :: vs) = level_run (snd (level_step (level_run s us) u)) vs.
Proof. induction us as [| w us IH]; intros s u vs; [reflexivity |]. exact (IH (snd (level_step s w)) u vs). Qed.
Lemma level_stable : forall us vs n v,
  fst (level_step (level_run level_start us) (Use n)) = Ok v ->
  fst (level_step (level_run level_start (us ++ Use n :: vs)) (Use n)) = Ok v.
Proof.
  intros us vs n v E. rewrite level_run_snoc. exact (level_stable_from _ vs n v (level_reached us) E).
Qed.
