(** What the tree of transforms does that its documentation excludes. *)
From Verif Require Import Base BaseProofs Cache CacheSpec CacheProofs Beautify BeautifySpec BeautifyProofs
  TransformTree TransformSpec TransformProofs.
Open Scope string_scope.
Open Scope Z_scope.

Section Kept.
  Context {V D : Type}.
  Variable num : numerics V D.

  Lemma tree_level_inv explicit z (s : tstate V D) : TInv num explicit z s -> tree_level s = Some (LInt z).
  Proof.
    intros (_ & Hr & _ & _ & Ho). unfold tree_level, live in *. destruct (nget (t_nodes s) []) as [n|] eqn:En; [|contradiction].
    destruct (Ho [] n En) as (_ & Hl & _). cbn. now rewrite Hl.
  Qed.

  Lemma explicit_apply_keeps z s x y req p v s' : TInv num true z s -> 2 <= z ->
    requested (t_default s) req = Ok p ->
    apply num true (Some x) y req s = (Ok v, s') ->
    exists n e, nget (t_nodes s') p = Some n /\ stored (n_cache n) (key_string p (KOos x)) = Some e /\ e_val e = v.
  Proof.
    intros Hs Hz Hp. unfold apply.
    destruct (get_tree_ok num true z s req Hs) as (s1 & E1 & I1 & L1 & H1 & D1 & G1).
    unfold mbind at 1. rewrite E1, Hp in *. unfold oos, eoos, mbind at 1.
    pose proof (right_compute_eoos num true eq_refl p x) as Hright.
    destruct (right_oos num true p (Some x) y z s1 I1 L1) as (s2 & E2 & I2 & F2).
    unfold oos, eoos in E2.
    destruct (cached p (KOos x) (compute_eoos num true p x) s1) as [[w|er] s2'] eqn:Ec; [|discriminate].
    assert (s2' = s2) by congruence. subst s2'.
    destruct (cached_keeps num true z s1 p (KOos x) (compute_eoos num true p x) w s2 I1 L1
                ltac:(cbn; lia) ltac:(cbn; lia) Hright Ec) as (n & e & Hn & Hk & He).
    unfold mbind. rewrite clean_all_eq.
    destruct (forallb _ _); [|discriminate]. intros H. injection H as <- <-. cbn [t_nodes with_nodes].
    destruct I2 as (J1 & _ & _ & _ & Ho). pose proof (Ho _ _ Hn) as Hnode.
    pose proof (node_numeric_entries num true _ _ _ _ Hnode) as Hnum.
    destruct Hnode as (Hwf & Hl & Hent).
    rewrite (nget_map (fun n => snd (clean_node n))), Hn. cbn [option_map].
    exists (snd (clean_node n)), e. split; [reflexivity|]. split; [|exact He].
    unfold clean_node.
    destruct (clean_cache_stored (n_cache n) None z (key_string p (KOos x)) Hwf Hnum Hl ltac:(lia)) as [_ C].
    destruct (clean_cache (n_cache n) None) as [r c]. cbn [snd n_cache] in *. rewrite C, Hk. unfold clean_fate.
    destruct (Hent _ _ Hk) as (k' & Ek & _ & Hf). apply key_string_inj in Ek. subst k'.
    rewrite Hf, rank_filed. destruct (Z.gtb_spec 2 z); [lia|reflexivity].
  Qed.

  Lemma kept_from_normal_on req level heap (s : tstate V D) os x y r p v s' :
    documented_level (Some level) -> init_tree req level heap = Ok s ->
    tadmissible_history num true s os ->
    tree_level (snd (trun num true s os)) = Some (LInt 2) ->
    requested (t_default (snd (trun num true s os))) r = Ok p ->
    apply num true (Some x) y r (snd (trun num true s os)) = (Ok v, s') ->
    exists n e, nget (t_nodes s') p = Some n /\ stored (n_cache n) (key_string p (KOos x)) = Some e /\
      e_val e = v /\ 2 < documented_from (n_default n) (KOos x).
  Proof.
    intros Hl Hi Hadm Hlev Hreq Ha.
    destruct (init_tree_ok num true req level heap s Hl Hi) as ((z & Hz & _) & Hlive & _).
    destruct (trun_ok num true os z s Hz Hlive Hadm) as (_ & z' & Hz').
    pose proof (tree_level_inv true z' _ Hz') as E. rewrite Hlev in E. injection E as <-.
    destruct (explicit_apply_keeps 2 _ x y r p v s' Hz' ltac:(lia) Hreq Ha) as (n & e & H1 & H2 & H3).
    exists n, e. split; [exact H1|]. split; [exact H2|]. split; [exact H3|]. cbn. destruct (n_default n); lia.
  Qed.

  Lemma kept_only explicit req level heap (s : tstate V D) os x y r v s' z :
    documented_level (Some level) -> init_tree req level heap = Ok s ->
    tadmissible_history num explicit s os ->
    tree_level (snd (trun num explicit s os)) = Some (LInt z) ->
    apply num explicit x y r (snd (trun num explicit s os)) = (Ok v, s') ->
    (forall p n w e, nget (t_nodes s') p = Some n ->
       stored (n_cache n) (key_string p (KOosStat w)) = Some e ->
       documented_from (n_default n) (KOosStat w) <= z) /\
    (z <= 1 -> forall w, ~ holds s' w).
  Proof.
    intros Hl Hi Hadm Hlev Ha.
    destruct (init_tree_ok num explicit req level heap s Hl Hi) as ((z0 & Hz & _) & Hlive & _).
    destruct (trun_ok num explicit os z0 s Hz Hlive Hadm) as (_ & z' & Hz').
    pose proof (tree_level_inv explicit z' _ Hz') as E. rewrite Hlev in E. injection E as <-.
    destruct (kept_after_apply num explicit z _ x y r s' v Hz' Ha) as [I K]. split.
    - intros p n w e Hn Hk. specialize (K _ _ _ _ Hn Hk). rewrite rank_filed in K. exact K.
    - intros Hle. exact (nothing_held_light num explicit z s' I Hle K).
  Qed.

  (** The whole history, from construction. *)
  Lemma tree_run explicit req level heap (s : tstate V D) os :
    documented_level (Some level) -> init_tree req level heap = Ok s ->
    tadmissible_history num explicit s os ->
    requested [] (Some req) = Ok (t_default s) /\
    Forall (output_is_right num explicit (t_default s)) (fst (trun num explicit s os)).
  Proof.
    intros Hl Hi Hadm.
    destruct (init_tree_ok num explicit req level heap s Hl Hi) as ((z0 & Hz & _) & Hlive & Hd & _).
    split; [exact Hd|]. apply (trun_ok num explicit os z0 s Hz Hlive Hadm).
  Qed.

  Lemma tree_light_run explicit req level heap (s : tstate V D) os :
    In level [LStr "none"; LStr "light"; LInt 0; LInt 1] -> init_tree req level heap = Ok s ->
    Forall light_op os -> Forall (fun e => succeeded (snd e)) (fst (trun num explicit s os)) ->
    Forall (output_is_right num explicit (t_default s)) (fst (trun num explicit s os)).
  Proof.
    intros Hlv Hi.
    assert (Hl : documented_level (Some level) /\ exists z, get_level (LInt 2) (Some level) = LInt z /\ z <= 1).
    { repeat (destruct Hlv as [<-|Hlv]; [split; [cbn; auto with zarith; lia|eexists; split; [reflexivity|lia]]|]).
      contradiction. }
    destruct Hl as (Hl & z1 & Hg & Hz1).
    destruct (init_tree_ok num explicit req level heap s Hl Hi) as ((z0 & Hz & Hg') & Hlive & Hd & _).
    assert (z0 = z1) by congruence. subst z0.
    exact (light_run num explicit os z1 s Hz Hz1 Hlive (init_holds_nothing req level heap s Hi)).
  Qed.
End Kept.

(** ** Modification in place *)

Section InPlace.
  Context {V D : Type}.
  Variable num : numerics V D.

  (** The value of object 0 changes from [d] to [d']; the second evaluation still
      returns the value of [d]. *)
  Definition after_change (d' : D) (h : nat -> D) (x : nat) : D :=
    match x with O => d' | S _ => h x end.

  Lemma in_place_plain (f : D -> V) h d' s : init_tree [] (LStr "normal") h = Ok s ->
    base_oos num = (fun d => Ok (f d)) ->
    map snd (fst (trun num true s [TApply (Some 0%nat) None None; THeap (after_change d' h);
                                   TApply (Some 0%nat) None None])) =
    [TVal (Ok (f (h 0%nat))); TDone; TVal (Ok (f (h 0%nat)))].
  Proof.
    intros Hi Hv. cbv in Hi. injection Hi as <-. destruct num as [f1 f2 f3 f4 f5 f6 f7 f8 f9 f10 f11 f12 f13]. cbn [base_oos] in Hv. subst.
    vm_compute. reflexivity.
  Qed.

  Lemma in_place_centered (f : D -> V) h d' m s : init_tree [RName "center"] (LStr "normal") h = Ok s ->
    base_oos num = (fun d => Ok (f d)) -> base_sample num = Ok m ->
    map snd (fst (trun num true s [TApply (Some 0%nat) None None; THeap (after_change d' h);
                                   TApply (Some 0%nat) None None])) =
    [TVal (Ok (eapp num MeanCenter (f (h 0%nat)) (estat num MeanCenter false m))); TDone;
     TVal (Ok (eapp num MeanCenter (f (h 0%nat)) (estat num MeanCenter false m)))].
  Proof.
    intros Hi Hv Hm. cbv in Hi. injection Hi as <-. destruct num as [f1 f2 f3 f4 f5 f6 f7 f8 f9 f10 f11 f12 f13]. cbn [base_oos base_sample] in *. subst.
    vm_compute. reflexivity.
  Qed.

  (** The kernel matrix between object 0 and the sample. *)
  Lemma in_place_kernel (g : D -> V) h d' s : init_tree [] (LStr "normal") h = Ok s ->
    base_k num = (fun d _ => Ok (g d)) ->
    map snd (fst (trun num false s [TApply (Some 0%nat) None None; THeap (after_change d' h);
                                    TApply (Some 0%nat) None None; TApply None (Some 0%nat) None])) =
    [TVal (Ok (g (h 0%nat))); TDone; TVal (Ok (g (h 0%nat))); TVal (Ok (transp num (g (h 0%nat))))].
  Proof.
    intros Hi Hv. cbv in Hi. injection Hi as <-. destruct num as [f1 f2 f3 f4 f5 f6 f7 f8 f9 f10 f11 f12 f13]. cbn [base_k] in Hv. subst.
    vm_compute. reflexivity.
  Qed.
End InPlace.

(** ** Merging *)

Lemma merging_drops_a_transform :
  beautify [RName "normalize"; RName "normalize"; RName "center"; RName "normalize"] = Ok [Sphere; Sphere] /\
  merged (flat_map meaning [RName "normalize"; RName "normalize"; RName "center"; RName "normalize"]) =
  [Sphere; MeanCenter; Sphere].
Proof. split; reflexivity. Qed.

Lemma merging_keeps_repeats :
  beautify [RCls Sphere; RCls Sphere; RCls Sphere] = Ok [Sphere; Sphere] /\ ~ no_repeat [Sphere; Sphere].
Proof. split; [reflexivity|]. cbn. tauto. Qed.

Lemma beautify_meaning l :
  (Forall recognised l -> exists cs, beautify l = Ok cs /\ subseq cs (flat_map meaning l) /\
                                     hd_error cs = hd_error (flat_map meaning l)) /\
  (~ Forall recognised l -> beautify l = Err ENameError).
Proof.
  unfold beautify. split; intros H.
  - rewrite (expand_requests_ok l H). cbn [bind]. eexists. split; [reflexivity|].
    split; [apply dedup_subseq|apply dedup_head].
  - now rewrite (expand_requests_bad l H).
Qed.

Lemma beautify_one_repeat l l1 a l2 : Forall recognised l -> flat_map meaning l = (l1 ++ a :: a :: l2)%list ->
  no_repeat (l1 ++ a :: l2) -> nth_error l2 1 <> Some a ->
  beautify l = Ok (merged (flat_map meaning l)) /\ merged (flat_map meaning l) = (l1 ++ a :: l2)%list.
Proof.
  intros Hr He Hn H1. unfold beautify. rewrite (expand_requests_ok l Hr), He. cbn [bind].
  rewrite (dedup_one_repeat l1 a l2 Hn H1), (merged_one_repeat l1 a l2 Hn). auto.
Qed.

Lemma beautify_no_repeat l : Forall recognised l -> no_repeat (flat_map meaning l) ->
  beautify l = Ok (flat_map meaning l).
Proof.
  intros Hr Hn. unfold beautify. rewrite (expand_requests_ok l Hr). cbn [bind].
  now rewrite (dedup_no_repeat _ Hn).
Qed.

(** ** The caller's list *)

Definition cosine : kclass := KClass (Some (RName "unit_sphere_normalization")) false.

Lemma cosine_grows n l : snd (repeat_calls cosine n l) = (l ++ repeat (RName "unit_sphere_normalization") n)%list.
Proof. now apply repeat_calls_grows. Qed.

Lemma cosine_third_call : fst (repeat_calls cosine 3 []) = [Ok [Sphere]; Ok [Sphere]; Ok [Sphere; Sphere]].
Proof. reflexivity. Qed.

Lemma center_flag_grows k l : kc_required k = None ->
  snd (kernel_init k true false l) = (l ++ [RName "mean_centering"])%list.
Proof. intros H. unfold kernel_init. now apply simplify_no_requirement. Qed.

(** ** A concrete instance for the examples *)

(** Numbers as data: centering subtracts, scaling to unit variance doubles and
    the sample is 10. *)
Definition toy : numerics Z Z :=
  Numerics Z Z (Ok 10) (fun x => Ok x) (fun x y => Ok (match y with None => 10 * x | Some y => x * y end))
    (fun c _ v => match c with MeanCenter => v | _ => 2 end)
    (fun c v t => match c with MeanCenter => v - t | _ => v * t end)
    (fun c v t => match c with MeanCenter => v + t | _ => v / t end)
    (fun _ v => Ok v) (fun _ v t => v - t) (fun o t => o + t) (fun v => v) (fun v => v)
    (fun _ o t u => o - t - u) (fun v => v).

