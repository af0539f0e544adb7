(** Property theorems C163, C164: which kernels and levels can be created. *)
From Verif Require Import Base Classes ClassesSpec ClassesProofs Abstract AbstractSpec AbstractProofs.
Open Scope nat_scope.
Open Scope string_scope.
Open Scope list_scope.

(** * C163 *)

(** A class, of kerch or of a user, can be instantiated exactly when every attribute that it
    finds is implemented; otherwise [TypeError]. *)
Theorem C163_rule :
  forall defs abs k, program defs abs -> declared defs abs k ->
    (create_plain k = Ok (k_mro k) <-> forall n, ~ missing defs abs (k_mro k) n) /\
    (create_plain k = Err ETypeError <-> exists n, missing defs abs (k_mro k) n).
Proof.
  intros defs abs k P D. pose proof (declared_settled defs abs k P D) as S. unfold create_plain.
  destruct (instantiate_ok defs abs k S) as [[E M]|[E M]]; rewrite E; split; split.
  - intros _. exact M.
  - reflexivity.
  - intro X. discriminate X.
  - intros [n X]. exfalso. exact (M n X).
  - intro X. discriminate X.
  - intro X. exfalso. destruct M as [n M]. exact (X n M).
  - intros _. exact M.
  - reflexivity.
Qed.
Print Assumptions C163_rule.
(** A kernel that can be created alone, of kerch or of a user and with any distance, can be used
    in every level that implements what levels declare. *)
Theorem C163_kernel_in_level :
  forall defs abs f1 f2 f3 L K d lv own,
    program defs abs -> declared defs abs L -> declared defs abs K -> declared_distance defs abs d ->
    k_mro L = level_class lv -> own_classes (k_mro K) (forget_option d) own ->
    NoDup (f1 :: f2 :: f3 :: lv ++ "View" :: own ++ below_view) ->
    same_body defs abs f1 (hd "View" lv) -> same_body defs abs f2 (hd "View" lv) -> same_body defs abs f3 (hd "" (k_mro K)) ->
    complete defs abs lv ->
    is_ok (create_kernel defs abs f3 K d) = true -> is_ok (create_level defs abs f1 f2 L K d) = true.
Proof. exact kernel_then_level. Qed.
Print Assumptions C163_kernel_in_level.
(** These levels do. *)
Theorem C163_levels :
  forall defs abs n lv, program defs abs -> In n ["KPCA"; "LSSVM"; "Ridge"] -> cls_of n = level_class lv -> complete defs abs lv.
Proof. exact kerch_complete. Qed.
Print Assumptions C163_levels.
(** The kernels of kerch can be created, with every distance; those that they are derived from
    cannot. *)
Theorem C163_kernels :
  (forall n d, In n (plain_kernels ++ distance_kernels) -> In d distance_choices -> is_ok (kerch_kernel n d) = true) /\
  (forall n d, In n base_kernels -> In d distance_choices -> kerch_kernel n d = Err ETypeError).
Proof.
  split.
  - intros n d I J.
    assert (T : forallb (fun n => forallb (fun d => is_ok (kerch_kernel n d)) distance_choices) (plain_kernels ++ distance_kernels) = true)
      by (vm_compute; reflexivity).
    rewrite forallb_forall in T. specialize (T n I). rewrite forallb_forall in T. exact (T d J).
  - intros n d I J.
    assert (T : forallb (fun n => forallb (fun d => match kerch_kernel n d with Err ETypeError => true | _ => false end) distance_choices) base_kernels = true)
      by (vm_compute; reflexivity).
    rewrite forallb_forall in T. specialize (T n I). rewrite forallb_forall in T. specialize (T d J). cbv beta in T.
    destruct (kerch_kernel n d) as [c|e]; [discriminate T|]. destruct e; try discriminate T. reflexivity.
Qed.
Print Assumptions C163_kernels.
(** A level refuses a class that is not derived from [Kernel]. *)
Theorem C163_not_a_kernel :
  forall defs abs f1 f2 L K d, ~ In "Kernel" (k_mro K) -> create_level defs abs f1 f2 L K d = Err EAssertionError.
Proof.
  intros defs abs f1 f2 L K d N. unfold create_level, knew_view.
  destruct (is_subclass (k_mro K) "Kernel") eqn:E; [|reflexivity]. exfalso. apply N. apply smem_In. exact E.
Qed.
Print Assumptions C163_not_a_kernel.

(** A user's kernel: a class derived from [Implicit] with the body that it needs, in a level. *)
Example C163_nontrivial :
  exists defs abs K own, program defs abs /\ declared defs abs (kclass_of "LSSVM") /\ declared defs abs K /\ k_mro (kclass_of "LSSVM") = level_class ["LSSVM"; "Level"; "_Level"] /\
    own_classes (k_mro K) None own /\ hd "" (k_mro K) = "Mine" /\
    NoDup ("f1" :: "f2" :: "f3" :: ["LSSVM"; "Level"; "_Level"] ++ "View" :: own ++ below_view) /\
    same_body defs abs "f1" "LSSVM" /\ same_body defs abs "f2" "LSSVM" /\ same_body defs abs "f3" "Mine" /\
    is_ok (create_kernel defs abs "f3" K None) = true /\
    (* without the body it is refused alone and in the level *)
    exists defs' abs' K', program defs' abs' /\ declared defs' abs' K' /\ hd "" (k_mro K') = "Mine" /\
      create_kernel defs' abs' "f3" K' None = Err ETypeError /\ create_level defs' abs' "f1" "f2" (kclass_of "LSSVM") K' None = Err ETypeError.
Proof.
  set (g := fun (mine : list string) (h : string -> list string) c =>
        let c' := copies_of [("f1", "LSSVM"); ("f2", "LSSVM"); ("f3", "Mine")] c in if String.eqb c' "Mine" then mine else h c').
  assert (PR : forall mine, program (g mine kdefs) (g [] kabs)).
  { intro mine. split.
    - intros c n. unfold g. cbv zeta. destruct (String.eqb (copies_of _ c) "Mine"); [intros []|].
      unfold kabs, kdefs. intro I. apply in_or_app. right. exact I.
    - intros c I. apply smem_In in I. unfold g. cbv zeta.
      assert (E : copies_of [("f1", "LSSVM"); ("f2", "LSSVM"); ("f3", "Mine")] c = c /\ String.eqb c "Mine" = false).
      { assert (T : forallb (fun c => String.eqb (copies_of [("f1", "LSSVM"); ("f2", "LSSVM"); ("f3", "Mine")] c) c && negb (String.eqb c "Mine")) (dkeys bodies) = true)
          by (vm_compute; reflexivity).
        rewrite forallb_forall in T. specialize (T c (proj1 (smem_In _ _) I)). apply andb_prop in T. destruct T as [T1 T2].
        apply String.eqb_eq in T1. split; [exact T1|]. destruct (String.eqb c "Mine"); [discriminate T2 | reflexivity]. }
      destruct E as [E1 E2]. rewrite E1, E2. reflexivity.
    - intros c n I _. unfold g. cbv zeta.
      assert (E : copies_of [("f1", "LSSVM"); ("f2", "LSSVM"); ("f3", "Mine")] c = c /\ String.eqb c "Mine" = false).
      { assert (T : forallb (fun c => String.eqb (copies_of [("f1", "LSSVM"); ("f2", "LSSVM"); ("f3", "Mine")] c) c && negb (String.eqb c "Mine")) (dkeys bodies) = true)
          by (vm_compute; reflexivity).
        rewrite forallb_forall in T. specialize (T c I). apply andb_prop in T. destruct T as [T1 T2].
        apply String.eqb_eq in T1. split; [exact T1|]. destruct (String.eqb c "Mine"); [discriminate T2 | reflexivity]. }
      destruct E as [E1 E2]. rewrite E1, E2. reflexivity. }
  assert (KM : forall mine, exists K, class_statement (g mine kdefs) (g [] kabs) "Mine" [kclass_of "Implicit"] = Ok K /\ k_mro K = kernel_class ["Mine"; "Implicit"] /\
                declared (g mine kdefs) (g [] kabs) K).
  { intro mine. destruct (class_statement_some (g mine kdefs) (g [] kabs) "Mine" [kclass_of "Implicit"] (kernel_class ["Mine"; "Implicit"])) as [K [A B]];
      [vm_compute; reflexivity|].
    exists K. split; [exact A|]. split; [exact B|]. apply (of_user _ _ "Mine" [kclass_of "Implicit"]); [| |exact A].
    - intros b [<-|[]]. apply kclass_declared. apply smem_In. vm_compute. reflexivity.
    - intros b [<-|[]] I. apply smem_In in I. vm_compute in I. discriminate I. }
  destruct (KM ["__init__"; "__str__"; "_implicit"]) as [K [KS [KK KD]]].
  destruct (KM ["__init__"; "__str__"]) as [K' [KS' [KK' KD']]].
  exists (g ["__init__"; "__str__"; "_implicit"] kdefs), (g [] kabs), K, ["Mine"; "Implicit"].
  split; [apply PR|]. split; [apply kclass_declared; apply smem_In; vm_compute; reflexivity|]. split; [exact KD|].
  split; [vm_compute; reflexivity|]. split; [rewrite KK; apply own_plain; [discriminate | intro I; apply smem_In in I; vm_compute in I; discriminate I]|].
  split; [rewrite KK; reflexivity|]. split; [apply nodupb_sound; vm_compute; reflexivity|].
  split; [split; reflexivity|]. split; [split; reflexivity|]. split; [split; reflexivity|].
  split. { vm_compute in KS. injection KS as <-. vm_compute. reflexivity. }
  exists (g ["__init__"; "__str__"] kdefs), (g [] kabs), K'. split; [apply PR|]. split; [exact KD'|]. split; [rewrite KK'; reflexivity|].
  vm_compute in KS'. injection KS' as <-. split; vm_compute; reflexivity.
Qed.

(** * C164 *)

(** [PPCA] is exported, but can be created with no kernel whose classes do not happen to define
    [H] or [W]; the same holds of [View], which multi-view levels create for each view, and of
    [WPCA]. *)
Theorem C164_exported_refuted :
  forall defs abs f1 f2 f3 K d n lv own h,
    program defs abs -> declared defs abs K -> declared_distance defs abs d ->
    In n ["PPCA"; "WPCA"; "View"; "Level"] -> cls_of n = level_class lv -> own_classes (k_mro K) (forget_option d) own ->
    NoDup (f1 :: f2 :: f3 :: lv ++ "View" :: own ++ below_view) ->
    same_body defs abs f1 (hd "View" lv) -> same_body defs abs f2 (hd "View" lv) -> same_body defs abs f3 (hd "" (k_mro K)) ->
    In h ["H"; "W"] -> (forall c, In c own -> ~ In h (defs c)) ->
    create_level defs abs f1 f2 (kclass_of n) K d = Err ETypeError.
Proof.
  intros defs abs f1 f2 f3 K d n lv own h P DK DD I E OWN N B1 B2 B3 IH NH.
  assert (Q : In n (dkeys kkerch) /\ k_mro (kclass_of n) = cls_of n /\
              exists lv', cls_of n = level_class lv' /\ forallb (fun c => smem c (dkeys bodies) && negb (smem h (kdefs c))) (lv' ++ ["View"; "Kernel"; "_BaseKernel"]) = true).
  { destruct I as [<-|[<-|[<-|[<-|[]]]]]; (split; [apply smem_In; vm_compute; reflexivity|]; split; [vm_compute; reflexivity|]).
    - exists ["PPCA"; "_PPCA"; "Level"; "_Level"]. split; [vm_compute; reflexivity|]. destruct IH as [<-|[<-|[]]]; vm_compute; reflexivity.
    - exists ["WPCA"; "_PPCA"; "Level"; "_Level"]. split; [vm_compute; reflexivity|]. destruct IH as [<-|[<-|[]]]; vm_compute; reflexivity.
    - exists []. split; [vm_compute; reflexivity|]. destruct IH as [<-|[<-|[]]]; vm_compute; reflexivity.
    - exists ["Level"; "_Level"]. split; [vm_compute; reflexivity|]. destruct IH as [<-|[<-|[]]]; vm_compute; reflexivity. }
  destruct Q as [Q1 [Q2 [lv' [Q3 Q4]]]]. rewrite E in Q3. unfold level_class in Q3. apply app_inv_tail in Q3. subst lv'.
  assert (T : In h tracked) by (destruct IH as [<-|[<-|[]]]; apply smem_In; vm_compute; reflexivity).
  apply (level_without defs abs f1 f2 f3 (kclass_of n) K d lv own P (kclass_declared _ _ _ Q1) DK DD (eq_trans Q2 E) OWN N B1 B2 B3 h).
  - rewrite (p_abs _ _ P "_View") by (apply smem_In; vm_compute; reflexivity).
    destruct IH as [<-|[<-|[]]]; apply smem_In; vm_compute; reflexivity.
  - destruct (resolve defs (lv ++ "View" :: own ++ ["Kernel"; "_BaseKernel"]) h) as [c|] eqn:R; [|reflexivity]. exfalso.
    apply resolve_In in R. destruct R as [J D]. unfold defines in D.
    assert (C : In c own \/ In c (lv ++ ["View"; "Kernel"; "_BaseKernel"])).
    { apply in_app_or in J. destruct J as [J|[J|J]]; [right; apply in_or_app; left; exact J | right; apply in_or_app; right; left; exact J|].
      apply in_app_or in J. destruct J as [J|J]; [left; exact J | right; apply in_or_app; right; right; exact J]. }
    destruct C as [C|C]; [apply (NH c C); apply smem_In; exact D|].
    rewrite forallb_forall in Q4. specialize (Q4 c C). apply andb_prop in Q4. destruct Q4 as [A B].
    rewrite (p_defs _ _ P c h (proj1 (smem_In _ _) A) T) in D. rewrite D in B. discriminate B.
Qed.
Print Assumptions C164_exported_refuted.
(** In particular with every kernel and distance of kerch. *)
Theorem C164_kerch_refuted :
  forall l n d, In l ["PPCA"; "WPCA"; "View"; "Level"] -> In n (plain_kernels ++ distance_kernels) -> In d distance_choices ->
    kerch_level l n d = Err ETypeError.
Proof.
  intros l n d L I J.
  assert (T : forallb (fun l => forallb (fun n => forallb (fun d => match kerch_level l n d with Err ETypeError => true | _ => false end) distance_choices)
                (plain_kernels ++ distance_kernels)) ["PPCA"; "WPCA"; "View"; "Level"] = true) by (vm_compute; reflexivity).
  rewrite forallb_forall in T. specialize (T l L). rewrite forallb_forall in T. specialize (T n I). rewrite forallb_forall in T. specialize (T d J).
  cbv beta in T. destruct (kerch_level l n d) as [c|e]; [discriminate T|]. destruct e; try discriminate T. reflexivity.
Qed.
Print Assumptions C164_kerch_refuted.
(** The other exported levels can be created, with every kernel and distance of kerch; the
    multi-view class that is exported has no abstract method either, while [MultiView] has. *)
Theorem C164_others_partial :
  (forall l n d, In l ["KPCA"; "LSSVM"; "Ridge"] -> In n (plain_kernels ++ distance_kernels) -> In d distance_choices -> is_ok (kerch_level l n d) = true) /\
  create_plain (kclass_of "MVKPCA") = Ok (cls_of "MVKPCA") /\ create_plain (kclass_of "MultiView") = Err ETypeError.
Proof.
  split; [|split; vm_compute; reflexivity].
  intros l n d L I J.
  assert (T : forallb (fun l => forallb (fun n => forallb (fun d => is_ok (kerch_level l n d)) distance_choices)
                (plain_kernels ++ distance_kernels)) ["KPCA"; "LSSVM"; "Ridge"] = true) by (vm_compute; reflexivity).
  rewrite forallb_forall in T. specialize (T l L). rewrite forallb_forall in T. specialize (T n I). rewrite forallb_forall in T. exact (T d J).
Qed.
Print Assumptions C164_others_partial.
(** What each level class leaves to implement, exactly. *)
Theorem C164_missing_partial :
  forall defs abs l ms n, program defs abs -> In (l, ms) left_to_do -> (missing defs abs (cls_of l) n <-> In n ms).
Proof. exact left_exactly. Qed.
Print Assumptions C164_missing_partial.
(** The hypotheses are those of a level with the [RBF] kernel. *)
Example C164_nontrivial :
  let fs := [("f1", "PPCA"); ("f2", "PPCA"); ("f3", "RBF")] in
  exists own, own_classes (k_mro (kclass_of "RBF")) None own /\ cls_of "PPCA" = level_class ["PPCA"; "_PPCA"; "Level"; "_Level"] /\
    NoDup ("f1" :: "f2" :: "f3" :: ["PPCA"; "_PPCA"; "Level"; "_Level"] ++ "View" :: own ++ below_view) /\
    same_body (with_copies fs kdefs) (with_copies fs kabs) "f1" "PPCA" /\ same_body (with_copies fs kdefs) (with_copies fs kabs) "f2" "PPCA" /\
    same_body (with_copies fs kdefs) (with_copies fs kabs) "f3" "RBF" /\
    (forall c, In c own -> ~ In "H" (with_copies fs kdefs c)) /\ List.length own = 7.
Proof.
  exists (["RBF"; "Exponential"] ++ "SelectDistance" :: ["Euclidean"; "DistanceSquared"] ++ ["_Distance"; "Implicit"]).
  split; [|split; [vm_compute; reflexivity|split; [apply nodupb_sound; vm_compute; reflexivity|]]].
  - replace (k_mro (kclass_of "RBF")) with (distance_kernel ["RBF"; "Exponential"]) by (vm_compute; reflexivity).
    apply own_distance; [discriminate | vm_compute; reflexivity].
  - split; [split; reflexivity|]. split; [split; reflexivity|]. split; [split; reflexivity|]. split; [|reflexivity].
    intros c I J. apply smem_In in J.
    assert (T : forallb (fun c => negb (smem "H" (with_copies [("f1", "PPCA"); ("f2", "PPCA"); ("f3", "RBF")] kdefs c)))
      (["RBF"; "Exponential"] ++ "SelectDistance" :: ["Euclidean"; "DistanceSquared"] ++ ["_Distance"; "Implicit"]) = true) by (vm_compute; reflexivity).
    rewrite forallb_forall in T. specialize (T c I). cbv beta in T. rewrite J in T. discriminate T.
Qed.
