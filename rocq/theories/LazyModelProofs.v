(** Proofs for [PropertiesLazy]: the models and the kernels. *)
From Verif Require Import Base BaseProofs Factory FactoryProofs Lazy LazySpec LazyProofs.
From Coq Require Import Lia.
Open Scope string_scope.
Open Scope list_scope.

(** ** The models *)
Definition model_names : list string := ["RKM"; "LSSVM"; "KPCA"; "Model"; "factory"].
Definition train_names : list string := ["Trainer"; "Hyper"].
Definition model_acts : list model_use :=
  map UseModel (model_names ++ ["?"]) ++ map UseTrain (train_names ++ ["?"]) ++ map CreateModel ["rkm"; "lssvm"; "kpca"; "model"; "?"].
Lemma model_unknown : forall s n, smem n model_names = false -> model_step s (UseModel n) = (Err EAttributeError, s).
Proof.
  intros s n H. cbn [model_step]. unfold fuel.
  destruct (dget model_table "model") as [d |] eqn:E; [| discriminate E].
  destruct (m_stub d) as [stub |] eqn:Es; [| vm_compute in E; injection E as <-; discriminate Es].
  assert (Ha : attributes model_table "model" = ["Model"; "RKM"; "LSSVM"; "KPCA"; "factory"]) by (vm_compute; reflexivity).
  assert (Hk : dkeys stub = model_names).
  { vm_compute in E. injection E as <-. cbn in Es. injection Es as <-. reflexivity. }
  apply (lookup_unknown _ _ _ _ _ d stub E Es); [| rewrite Hk; exact H].
  rewrite Ha. apply not_true_iff_false. intros X. apply not_true_iff_false in H. apply H.
  apply smem_In in X. apply smem_In. cbn in X |- *. tauto.
Qed.
Lemma train_unknown : forall s n, smem n train_names = false -> model_step s (UseTrain n) = (Err EAttributeError, s).
Proof.
  intros s n H. cbn [model_step]. unfold fuel.
  destruct (dget model_table "train") as [d |] eqn:E; [| discriminate E].
  destruct (m_stub d) as [stub |] eqn:Es; [| vm_compute in E; injection E as <-; discriminate Es].
  assert (Ha : attributes model_table "train" = train_names) by (vm_compute; reflexivity).
  assert (Hk : dkeys stub = train_names).
  { vm_compute in E. injection E as <-. cbn in Es. injection Es as <-. reflexivity. }
  apply (lookup_unknown _ _ _ _ _ d stub E Es); [rewrite Ha; exact H | rewrite Hk; exact H].
Qed.
Lemma model_create_ext : forall s ty ty', model_factory ty = model_factory ty' -> model_step s (CreateModel ty) = model_step s (CreateModel ty').
Proof. intros s ty ty' H. unfold model_step. rewrite H. reflexivity. Qed.
Lemma model_factory_cases : forall ty,
  model_factory ty = Ok "RKM" \/ model_factory ty = Ok "LSSVM" \/ model_factory ty = Ok "KPCA" \/ model_factory ty = Ok "Model" \/
  model_factory ty = Err ENameError.
Proof.
  intros ty. destruct (model_factory ty) as [c | e] eqn:E.
  - apply model_spec in E. destruct E as [[Hc _] | [-> _]]; [| tauto].
    cbn in Hc. destruct Hc as [<- | [<- | [<- | [<- | []]]]]; tauto.
  - right. right. right. right. revert E. unfold model_factory, model_lookup.
    destruct (getattr_ci model_dir ty) as [a |]; cbn [bind].
    + destruct (String.eqb a "factory"); [vm_compute; discriminate | discriminate].
    + intros H. injection H as <-. reflexivity.
Qed.
Definition like (u u' : model_use) : Prop :=
  (forall s, model_step s u = model_step s u') /\ asks_model u = asks_model u' /\ needs_model u = needs_model u'.
Lemma model_covered : forall u, exists u', In u' model_acts /\ like u u'.
Proof.
  intros [n | n | ty].
  - destruct (smem n model_names) eqn:E.
    + exists (UseModel n). split; [| repeat split].
      apply in_or_app. left. apply in_map. apply in_or_app. left. now apply smem_In.
    + exists (UseModel "?"). split; [apply in_or_app; left; apply in_map; apply in_or_app; right; now left |].
      split; [intros s; rewrite (model_unknown s n E), (model_unknown s "?" eq_refl); reflexivity |].
      assert (N : forall c, In c model_names -> String.eqb n c = false).
      { intros c Hc. apply String.eqb_neq. intros ->. apply smem_In in Hc. rewrite Hc in E. discriminate E. }
      split; cbn [asks_model needs_model].
      * rewrite N by (cbn; tauto). reflexivity.
      * transitivity false; [| reflexivity]. apply not_true_iff_false. intros X. apply not_true_iff_false in E. apply E.
        apply smem_In in X. apply smem_In. cbn in X |- *. tauto.
  - destruct (smem n train_names) eqn:E.
    + exists (UseTrain n). split; [| repeat split].
      apply in_or_app. right. apply in_or_app. left. apply in_map. apply in_or_app. left. now apply smem_In.
    + exists (UseTrain "?"). split; [apply in_or_app; right; apply in_or_app; left; apply in_map; apply in_or_app; right; now left |].
      split; [intros s; rewrite (train_unknown s n E), (train_unknown s "?" eq_refl); reflexivity |].
      split; [reflexivity |]. cbn [needs_model]. transitivity false; [| reflexivity].
      apply String.eqb_neq. intros ->. discriminate E.
  - destruct (model_factory_cases ty) as [F | [F | [F | [F | F]]]];
      [exists (CreateModel "rkm") | exists (CreateModel "lssvm") | exists (CreateModel "kpca") | exists (CreateModel "model") | exists (CreateModel "?")];
      (split; [cbn; tauto | split; [intros s; apply model_create_ext; rewrite F; vm_compute; reflexivity | split; reflexivity]]).
Qed.
Definition model_states : list state := Eval vm_compute in explore model_step model_acts 500 [model_start] [model_start].
Lemma model_closed : forallb (fun s => forallb (fun u => known model_states (snd (model_step s u))) model_acts) model_states = true.
Proof. vm_compute. reflexivity. Qed.
Lemma model_start_In : In model_start model_states.
Proof. apply known_In. vm_compute. reflexivity. Qed.
Lemma model_run_steps : forall us s, model_run s us = steps model_step s us.
Proof. induction us as [| u us IH]; intros s; cbn [model_run steps]; [reflexivity | apply IH]. Qed.
Lemma model_in : forall us s, In s model_states -> In (model_run s us) model_states.
Proof.
  intros us s H. rewrite model_run_steps. apply (steps_In model_step model_acts); [| exact model_closed | exact H].
  intros u. destruct (model_covered u) as [u' [H1 [H2 _]]]. exists u'. split; assumption.
Qed.
Lemma model_in1 : forall s u, In s model_states -> In (snd (model_step s u)) model_states.
Proof. intros s u Hs. exact (model_in [u] s Hs). Qed.
Lemma model_check : forall f g : state -> result value,
  forallb (fun s => res_eqb (f s) (g s)) model_states = true -> forall us, f (model_run model_start us) = g (model_run model_start us).
Proof.
  intros f g H us. apply res_eqb_sound. rewrite forallb_forall in H.
  exact (H _ (model_in us model_start model_start_In)).
Qed.

(** What is bound under [Model] tells what came first. *)
Definition model_of (s : state) : option value := bound s "model.Model".
Definition model_next (v : option value) (u : model_use) : option value :=
  match v with
  | Some w => Some w
  | None => if asks_model u then Some (model_class "Model") else if needs_model u then Some (VModule "model.Model") else None
  end.
Lemma model_next_all : forallb (fun s => forallb (fun u => option_eqb (model_of (snd (model_step s u))) (model_next (model_of s) u)) model_acts) model_states = true.
Proof. vm_compute. reflexivity. Qed.
Lemma model_next_step : forall s u, In s model_states -> model_of (snd (model_step s u)) = model_next (model_of s) u.
Proof.
  intros s u Hs. destruct (model_covered u) as [u' [Hu [E [A1 A2]]]].
  rewrite E. unfold model_next. rewrite A1, A2. fold (model_next (model_of s) u').
  apply option_eqb_sound.
  exact (every _ _ (fun s u => option_eqb (model_of (snd (model_step s u))) (model_next (model_of s) u)) _ _ model_next_all s u' Hs Hu).
Qed.
Fixpoint model_after (v : option value) (us : list model_use) : option value :=
  match us with [] => v | u :: us' => model_after (model_next v u) us' end.
Lemma model_after_run : forall us s, In s model_states -> model_of (model_run s us) = model_after (model_of s) us.
Proof.
  induction us as [| u us IH]; intros s Hs; cbn [model_run model_after]; [reflexivity |].
  rewrite IH by exact (model_in1 s u Hs). rewrite model_next_step by exact Hs. reflexivity.
Qed.
Lemma model_after_some : forall us v, model_after (Some v) us = Some v.
Proof. induction us as [| u us IH]; intros v; cbn; [reflexivity | apply IH]. Qed.
Lemma model_after_snoc : forall us u v, model_after v (us ++ [u]) = model_next (model_after v us) u.
Proof. induction us as [| w us IH]; intros u v; cbn; [reflexivity | apply IH]. Qed.
Definition is_module (v : option value) : bool := match v with Some (VModule _) => true | _ => false end.
Lemma model_after_none : forall us, is_module (model_after None us) = other_first us.
Proof.
  induction us as [| u us IH]; cbn [model_after other_first model_next]; [reflexivity |].
  destruct (asks_model u); [rewrite model_after_some; reflexivity |].
  destruct (needs_model u); [rewrite model_after_some; reflexivity | exact IH].
Qed.
Lemma model_of_start : model_of model_start = None.
Proof. vm_compute. reflexivity. Qed.
Lemma model_module_iff : forall us, is_module (model_of (model_run model_start us)) = other_first us.
Proof. intros us. rewrite model_after_run by exact model_start_In. rewrite model_of_start. apply model_after_none. Qed.
Lemma model_class_iff : forall us u, asks_model u = false -> needs_model u = true ->
  is_module (model_next (model_of (model_run model_start us)) u) = other_first (us ++ [u]).
Proof.
  intros us u A N. rewrite <- model_after_none, model_after_snoc, model_after_run by exact model_start_In.
  rewrite model_of_start. reflexivity.
Qed.

Lemma model_found : forall us,
  fst (model_step (model_run model_start us) (UseModel "Model")) =
    Ok (if is_module (model_of (model_run model_start us)) then VModule "model.Model" else model_class "Model").
Proof.
  apply (model_check (fun s => fst (model_step s (UseModel "Model")))
           (fun s => Ok (if is_module (model_of s) then VModule "model.Model" else model_class "Model"))). vm_compute. reflexivity.
Qed.
Lemma model_model : forall us,
  fst (model_step (model_run model_start us) (UseModel "Model")) = Ok (if other_first us then VModule "model.Model" else model_class "Model").
Proof. intros us. rewrite model_found, model_module_iff. reflexivity. Qed.
Lemma model_rkm : forall us, fst (model_step (model_run model_start us) (UseModel "RKM")) = Ok (model_class "RKM").
Proof. apply (model_check (fun s => fst (model_step s (UseModel "RKM"))) (fun _ => Ok (model_class "RKM"))). vm_compute. reflexivity. Qed.
Lemma model_lssvm : forall us, fst (model_step (model_run model_start us) (UseModel "LSSVM")) = Ok (model_class "LSSVM").
Proof. apply (model_check (fun s => fst (model_step s (UseModel "LSSVM"))) (fun _ => Ok (model_class "LSSVM"))). vm_compute. reflexivity. Qed.
Lemma model_kpca : forall us, fst (model_step (model_run model_start us) (UseModel "KPCA")) = Ok (model_class "KPCA").
Proof. apply (model_check (fun s => fst (model_step s (UseModel "KPCA"))) (fun _ => Ok (model_class "KPCA"))). vm_compute. reflexivity. Qed.
Lemma model_fact : forall us, fst (model_step (model_run model_start us) (UseModel "factory")) = Ok (model_class "factory").
Proof. apply (model_check (fun s => fst (model_step s (UseModel "factory"))) (fun _ => Ok (model_class "factory"))). vm_compute. reflexivity. Qed.
Lemma model_others : forall us c, In c ["RKM"; "LSSVM"; "KPCA"; "factory"] ->
  fst (model_step (model_run model_start us) (UseModel c)) = Ok (model_class c).
Proof.
  intros us c Hc. cbn in Hc. destruct Hc as [<- | [<- | [<- | [<- | []]]]];
    [apply model_rkm | apply model_lssvm | apply model_kpca | apply model_fact].
Qed.
Lemma model_trainer : forall us, fst (model_step (model_run model_start us) (UseTrain "Trainer")) = Err import_error.
Proof. apply (model_check (fun s => fst (model_step s (UseTrain "Trainer"))) (fun _ => Err import_error)). vm_compute. reflexivity. Qed.
Lemma create_rkm : forall us, fst (model_step (model_run model_start us) (CreateModel "rkm")) = Ok (model_class "RKM").
Proof. apply (model_check (fun s => fst (model_step s (CreateModel "rkm"))) (fun _ => Ok (model_class "RKM"))). vm_compute. reflexivity. Qed.
Lemma create_mlssvm : forall us, fst (model_step (model_run model_start us) (CreateModel "lssvm")) = Ok (model_class "LSSVM").
Proof. apply (model_check (fun s => fst (model_step s (CreateModel "lssvm"))) (fun _ => Ok (model_class "LSSVM"))). vm_compute. reflexivity. Qed.
Lemma create_mkpca : forall us, fst (model_step (model_run model_start us) (CreateModel "kpca")) = Ok (model_class "KPCA").
Proof. apply (model_check (fun s => fst (model_step s (CreateModel "kpca"))) (fun _ => Ok (model_class "KPCA"))). vm_compute. reflexivity. Qed.
Lemma create_munknown : forall us, fst (model_step (model_run model_start us) (CreateModel "?")) = Err ENameError.
Proof. apply (model_check (fun s => fst (model_step s (CreateModel "?"))) (fun _ => Err ENameError)). vm_compute. reflexivity. Qed.
Lemma create_model : forall us,
  fst (model_step (model_run model_start us) (CreateModel "model")) =
    if is_module (model_next (model_of (model_run model_start us)) (CreateModel "model")) then Err ETypeError else Ok (model_class "Model").
Proof.
  apply (model_check (fun s => fst (model_step s (CreateModel "model")))
           (fun s => if is_module (model_next (model_of s) (CreateModel "model")) then Err ETypeError else Ok (model_class "Model"))).
  vm_compute. reflexivity.
Qed.
Lemma other_first_create : forall us ty, other_first (us ++ [CreateModel ty]) = other_first (us ++ [CreateModel "model"]).
Proof.
  induction us as [| u us IH]; intros ty; [reflexivity |]. cbn [app other_first]. rewrite IH. reflexivity.
Qed.
Lemma model_create : forall us ty,
  fst (model_step (model_run model_start us) (CreateModel ty)) =
    bind (model_factory ty) (fun c => if String.eqb c "Model" && other_first (us ++ [CreateModel ty]) then Err ETypeError else Ok (model_class c)).
Proof.
  intros us ty. destruct (model_factory_cases ty) as [F | [F | [F | [F | F]]]]; rewrite F; cbn [bind].
  - rewrite (model_create_ext _ ty "rkm") by exact F. rewrite create_rkm. reflexivity.
  - rewrite (model_create_ext _ ty "lssvm") by exact F. rewrite create_mlssvm. reflexivity.
  - rewrite (model_create_ext _ ty "kpca") by exact F. rewrite create_mkpca. reflexivity.
  - rewrite (model_create_ext _ ty "model") by exact F. rewrite create_model.
    rewrite (model_class_iff us (CreateModel "model") eq_refl eq_refl), (other_first_create us ty). reflexivity.
  - rewrite (model_create_ext _ ty "?") by exact F. rewrite create_munknown. reflexivity.
Qed.

(** ** The kernels: tables whose modules import only modules that are listed before them *)
Definition imports_of (d : module) : list string :=
  flat_map (fun i => match i with ImportModule m => [m] | ImportNames _ _ => [] end) (m_imports d).
Definition files_only (d : module) : bool := forallb (fun i => match i with ImportModule _ => true | ImportNames _ _ => false end) (m_imports d).
Fixpoint rank (t : table) (m : string) : nat :=
  match t with [] => 0 | (k, _) :: t' => if String.eqb k m then 0 else S (rank t' m) end.
Definition before (t : table) (m m' : string) : bool := dmem t m && Nat.ltb (rank t m) (rank t m').
Definition ordered (t : table) : bool :=
  forallb (fun x => let d := snd x in
    match m_parent d with None => true | Some (p, _) => before t p (fst x) end &&
    files_only d && forallb (fun m => before t m (fst x)) (imports_of d) && Nat.leb (List.length (m_imports d)) 3) t.
Lemma dget_in : forall (t : table) m d, dget t m = Some d -> In (m, d) t.
Proof.
  induction t as [| [k w] t IH]; intros m d H; cbn in H; [discriminate H |].
  destruct (String.eqb k m) eqn:E; [| right; exact (IH m d H)].
  injection H as ->. apply String.eqb_eq in E. subst k. now left.
Qed.
Lemma dmem_get : forall (t : table) m, dmem t m = true -> exists d, dget t m = Some d.
Proof. intros t m H. unfold dmem in H. destruct (dget t m) as [d |]; [now exists d | discriminate H]. Qed.
Definition succeeds (f : nat) (t : table) (s : state) (m : string) : Prop := fst (load f t s m) = Ok tt.
Lemma run_ok : forall t r, (forall f s m, dmem t m = true -> rank t m < r -> 5 * rank t m + 2 <= f -> succeeds f t s m) ->
  forall is f s, forallb (fun i => match i with ImportModule _ => true | ImportNames _ _ => false end) is = true ->
  (forall m, In m (flat_map (fun i => match i with ImportModule m => [m] | ImportNames _ _ => [] end) is) -> dmem t m = true /\ rank t m < r) ->
  List.length is < f -> 5 * r - 2 + List.length is <= f ->
  fst (run f t s is) = Ok tt.
Proof.
  intros t r L. induction is as [| i is IH]; intros f s Hf Hb H1 H2.
  - destruct f as [| f]; [cbn in H1; lia | reflexivity].
  - destruct f as [| f]; [cbn in H1; lia |]. destruct i as [m | p ns]; [| discriminate Hf].
    cbn in Hf. cbn [List.length] in H1, H2.
    destruct (Hb m (or_introl eq_refl)) as [D R].
    assert (LF : succeeds f t s m) by (apply L; [exact D | exact R | lia]).
    unfold succeeds in LF. cbn [run]. destruct (load f t s m) as [r1 s1]. cbn in LF. subst r1.
    apply IH; [exact Hf | | lia | lia]. intros m' Hm'. apply Hb. cbn. now right.
Qed.
Lemma load_ok : forall t, ordered t = true -> forall r f s m,
  dmem t m = true -> rank t m < r -> 5 * rank t m + 2 <= f -> succeeds f t s m.
Proof.
  intros t O. induction r as [| r IH]; intros f s m D R F; [lia |].
  destruct f as [| f]; [lia |]. destruct (dmem_get t m D) as [d Hd].
  pose proof (dget_in _ _ _ Hd) as Hin. unfold ordered in O. rewrite forallb_forall in O. specialize (O _ Hin). cbn [fst snd] in O.
  apply andb_prop in O as [O Ol]. apply andb_prop in O as [O Oi]. apply andb_prop in O as [Op Of].
  apply Nat.leb_le in Ol. rewrite forallb_forall in Oi.
  unfold succeeds. cbn [load]. destruct (loaded s m); [reflexivity |]. rewrite Hd.
  assert (P : forall s', exists s0, match m_parent d with None => (Ok tt, s') | Some (p, _) => load f t s' p end = (Ok tt, s0)).
  { intros s'. destruct (m_parent d) as [[p a] |]; [| now exists s'].
    unfold before in Op. apply andb_prop in Op as [D' R']. apply Nat.ltb_lt in R'.
    assert (LF : succeeds f t s' p) by (apply IH; [exact D' | lia | lia]).
    unfold succeeds in LF. destruct (load f t s' p) as [r0 s0]. cbn in LF. subst r0. now exists s0. }
  destruct (P s) as [s0 E0]. rewrite E0. cbv iota beta.
  assert (Q : fst (run f t (set_loaded s0 m true) (m_imports d)) = Ok tt).
  { apply (run_ok t (rank t m)).
    - intros f' s' m' D' R' F'. apply IH; [exact D' | lia | exact F'].
    - exact Of.
    - intros m' Hm'. specialize (Oi m' Hm'). unfold before in Oi. apply andb_prop in Oi as [D' R']. apply Nat.ltb_lt in R'. split; assumption.
    - destruct (rank t m) as [| k] eqn:Er; [| lia].
      assert (Z : m_imports d = []).
      { destruct (m_imports d) as [| i is] eqn:Ei; [reflexivity |]. exfalso.
        unfold files_only in Of. rewrite Ei in Of. destruct i as [m' | p ns]; [| discriminate Of].
        assert (B : before t m' m = true) by (apply Oi; unfold imports_of; rewrite Ei; now left).
        unfold before in B. apply andb_prop in B as [_ B]. apply Nat.ltb_lt in B. lia. }
      rewrite Z. cbn. lia.
    - destruct (rank t m) as [| k] eqn:Er; [| lia].
      assert (Z : m_imports d = []).
      { destruct (m_imports d) as [| i is] eqn:Ei; [reflexivity |]. exfalso.
        unfold files_only in Of. rewrite Ei in Of. destruct i as [m' | p ns]; [| discriminate Of].
        assert (B : before t m' m = true) by (apply Oi; unfold imports_of; rewrite Ei; now left).
        unfold before in B. apply andb_prop in B as [_ B]. apply Nat.ltb_lt in B. lia. }
      rewrite Z. cbn. lia. }
  destruct (run f t (set_loaded s0 m true) (m_imports d)) as [r1 s1]. cbn in Q. subst r1. reflexivity.
Qed.
Lemma kernel_ordered : ordered kernel_table = true.
Proof. vm_compute. reflexivity. Qed.
Lemma kernel_loads : forall s m f, In m kernel_files -> 5 * rank kernel_table m + 2 <= f -> succeeds f kernel_table s m.
Proof.
  intros s m f Hm Hf. apply (load_ok kernel_table kernel_ordered (S (rank kernel_table m))); [| lia | exact Hf].
  assert (A : forallb (dmem kernel_table) kernel_files = true) by (vm_compute; reflexivity).
  rewrite forallb_forall in A. exact (A m Hm).
Qed.
Definition small_rank (m : string) : bool := Nat.leb (5 * rank kernel_table m + 2) 398.
Lemma kernel_small : forallb small_rank kernel_files = true.
Proof. vm_compute. reflexivity. Qed.
Lemma kernel_small_rank : forall m, In m kernel_files -> 5 * rank kernel_table m + 2 <= 398.
Proof. intros m Hm. pose proof kernel_small as A. rewrite forallb_forall in A. specialize (A m Hm). apply Nat.leb_le in A. exact A. Qed.
Lemma kernel_import : forall s m, In m kernel_files -> fst (kernel_step s (ImportFile m)) = Ok (VModule m).
Proof.
  intros s m Hm. unfold kernel_step. pose proof (kernel_small_rank m Hm) as B.
  assert (L : succeeds kernel_fuel kernel_table s m) by (apply kernel_loads; [exact Hm | unfold kernel_fuel; lia]).
  unfold succeeds in L. destruct (load kernel_fuel kernel_table s m) as [r s1]. cbn in L. subst r. reflexivity.
Qed.
(** A name of the stub that is no file of the package. *)
Lemma lookup_offered : forall t f s p n d stub rel full df,
  dget t p = Some d -> m_stub d = Some stub -> child t p n = None -> dget stub n = Some (rel, full) ->
  dget t full = Some df -> m_stub df = None -> smem n (m_names df) = true ->
  succeeds (S f) t s full -> fst (lookup (S (S f)) t s p n) = Ok (VObject full n).
Proof.
  intros t f s p n d stub rel full df Hd Hs Hc Hk Hf Hfs Hn L.
  remember (S f) as g eqn:Eg. cbn [lookup]. rewrite Hd, Hs. unfold attribute. rewrite Hc, Hk.
  unfold succeeds in L. destruct (load g t s full) as [r s1]. cbn in L. subst r. subst g.
  cbn [lookup]. rewrite Hf, Hfs, Hn. reflexivity.
Qed.
Definition offered_ok (x : string * string) : bool :=
  match dget kernel_table "kernel" with
  | Some d =>
      match m_stub d with
      | Some stub =>
          match child kernel_table "kernel" (fst x), dget stub (fst x) with
          | None, Some (rel, full) =>
              String.eqb full (submodule "kernel" (snd x)) && smem full kernel_files &&
              match dget kernel_table full with
              | Some df => match m_stub df with None => smem (fst x) (m_names df) | Some _ => false end
              | None => false
              end
          | _, _ => false
          end
      | None => false
      end
  | None => false
  end.
Lemma offered_all : forallb offered_ok offered_kernels = true.
Proof. vm_compute. reflexivity. Qed.
Lemma kernel_offered : forall s n rel, In (n, rel) offered_kernels ->
  fst (kernel_step s (UseKernel n)) = Ok (VObject (submodule "kernel" rel) n).
Proof.
  intros s n rel Hin. pose proof offered_all as A. rewrite forallb_forall in A. specialize (A _ Hin).
  unfold offered_ok in A. cbn [fst snd] in A.
  destruct (dget kernel_table "kernel") as [d |] eqn:Hd; [| discriminate A].
  destruct (m_stub d) as [stub |] eqn:Hs; [| discriminate A].
  destruct (child kernel_table "kernel" n) as [c |] eqn:Hc; [discriminate A |].
  destruct (dget stub n) as [[rel' full] |] eqn:Hk; [| discriminate A].
  apply andb_prop in A as [A1 A2]. apply andb_prop in A1 as [A1 A3]. apply String.eqb_eq in A1. apply smem_In in A3.
  destruct (dget kernel_table full) as [df |] eqn:Hf; [| discriminate A2].
  destruct (m_stub df) as [x |] eqn:Hfs; [discriminate A2 |].
  rewrite <- A1. pose proof (kernel_small_rank full A3) as B.
  apply (lookup_offered kernel_table 398 s "kernel" n d stub rel' full df Hd Hs Hc Hk Hf Hfs A2).
  apply kernel_loads; [exact A3 | lia].
Qed.
Lemma kernel_unknown : forall s n,
  ~ In n (map fst offered_kernels) -> ~ In n ["distance"; "generic"; "random_features"; "network"; "time"; "vision"; "statistics";
     "_base_kernel"; "kernel"; "implicit"; "explicit"; "_factory"; "nystrom"] ->
  kernel_step s (UseKernel n) = (Err EAttributeError, s).
Proof.
  intros s n H1 H2. unfold kernel_step.
  destruct (dget kernel_table "kernel") as [d |] eqn:Hd; [| discriminate Hd].
  destruct (m_stub d) as [stub |] eqn:Hs; [| vm_compute in Hd; injection Hd as <-; discriminate Hs].
  assert (K : dkeys stub = map fst offered_kernels).
  { vm_compute in Hd. injection Hd as <-. cbn in Hs. injection Hs as <-. vm_compute. reflexivity. }
  assert (Ha : attributes kernel_table "kernel" = ["distance"; "generic"; "random_features"; "network"; "time"; "vision"; "statistics";
     "_base_kernel"; "kernel"; "implicit"; "explicit"; "_factory"; "nystrom"]) by (vm_compute; reflexivity).
  apply (lookup_unknown 399 kernel_table s "kernel" n d stub Hd Hs).
  - rewrite Ha. apply not_true_iff_false. intros X. apply H2. now apply smem_In.
  - rewrite K. apply not_true_iff_false. intros X. apply H1. now apply smem_In.
Qed.
