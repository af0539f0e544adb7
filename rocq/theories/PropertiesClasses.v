(** Property theorems C151, C152: the classes of levels and kernels, and copies of them. *)
From Verif Require Import Base Classes ClassesSpec ClassesProofs.
Open Scope nat_scope.
Open Scope string_scope.
Open Scope list_scope.

(** * C151 *)

(** The order in which attributes are searched: each class once, the given classes and what is
    above them only, and the order of every base kept. *)
Theorem C151_order :
  forall n bases c, derive n bases = Ok c ->
    exists l, c = n :: l /\ NoDup l /\ (forall b, In b bases -> subseq b l) /\ subseq (heads bases) l /\
    (forall x, In x l <-> exists b, In b bases /\ In x b).
Proof. exact derive_order. Qed.
Print Assumptions C151_order.
(** A level can be made of every kernel, of kerch or of a user. *)
Theorem C151_level :
  forall f1 f2 lv k d own, own_classes k d own -> NoDup (f1 :: lv ++ "View" :: own ++ below_view) ->
    is_ok (level_object f1 f2 (level_class lv) k d) = true.
Proof. intros f1 f2 lv k d own H N. rewrite (level_object_order f1 f2 lv k d own H N). reflexivity. Qed.
Print Assumptions C151_level.
(** [level.kernel.a] is the attribute [a] that an object of the kernel itself has, whenever a
    kernel class defines it. *)
Theorem C151_kernel :
  forall f1 f2 f3 lv k d own obj kobj defs a c,
    own_classes k d own -> NoDup (f1 :: f2 :: f3 :: lv ++ "View" :: own ++ below_view) ->
    level_object f1 f2 (level_class lv) k d = Ok obj -> kernel_object f3 k d = Ok kobj -> defs f3 = defs (hd "" k) ->
    found [(f3, hd "" k)] defs kobj a = Some c -> ~ In c below_sample ->
    resolve_super defs obj "View" a = Some c.
Proof.
  intros f1 f2 f3 lv k d own obj kobj defs a c H N L K E F B.
  rewrite (kernel_of_level f1 f2 f3 lv k d own obj kobj defs a H N L K E), F.
  rewrite (smem_out _ _ B). reflexivity.
Qed.
Print Assumptions C151_kernel.
(** The others are those of the kernel too, unless [_View] has them. *)
Theorem C151_below :
  forall f1 f2 f3 lv k d own obj kobj defs a,
    own_classes k d own -> NoDup (f1 :: f2 :: f3 :: lv ++ "View" :: own ++ below_view) ->
    level_object f1 f2 (level_class lv) k d = Ok obj -> kernel_object f3 k d = Ok kobj -> defs f3 = defs (hd "" k) ->
    (defines defs a "_View" = false -> resolve_super defs obj "View" a = found [(f3, hd "" k)] defs kobj a) /\
    (defines defs a "_View" = true ->
     (resolve_super defs obj "View" a = Some "_View" <->
      forall c, found [(f3, hd "" k)] defs kobj a = Some c -> In c below_sample \/ c = "_View")).
Proof.
  intros f1 f2 f3 lv k d own obj kobj defs a H N L K E.
  pose proof (kernel_of_level f1 f2 f3 lv k d own obj kobj defs a H N L K E) as Q. split; intro V; rewrite Q, V.
  - destruct (found _ defs kobj a) as [c|]; [rewrite andb_false_r; reflexivity | reflexivity].
  - destruct (found _ defs kobj a) as [c|].
    + rewrite andb_true_r. destruct (smem c below_sample) eqn:S; split.
      * intros _ c' C. injection C as <-. left. apply smem_In. exact S.
      * reflexivity.
      * intros X c' C. injection C as <-. injection X as X. right. exact X.
      * intro X. destruct (X c eq_refl) as [I|I]; [apply smem_In in I; congruence | rewrite I; reflexivity].
    + split; [intros _ c' C; discriminate C | reflexivity].
Qed.
Print Assumptions C151_below.
(** A level answers with its own classes first, and with its kernel otherwise. *)
Theorem C151_level_first :
  forall f1 f2 lv k d own obj defs a,
    own_classes k d own -> NoDup (f1 :: f2 :: lv ++ "View" :: own ++ below_view) ->
    level_object f1 f2 (level_class lv) k d = Ok obj -> (forall f, f = f1 \/ f = f2 -> defs f = defs (hd "View" lv)) ->
    found [(f1, hd "View" lv); (f2, hd "View" lv)] defs obj a =
      match resolve defs (lv ++ ["View"]) a with Some c => Some c | None => resolve_super defs obj "View" a end.
Proof. exact level_first. Qed.
Print Assumptions C151_level_first.
(** The classes of kerch have these shapes, and a class that is no kernel is refused. *)
Theorem C151_kerch :
  (forall n, In n ["Polynomial"; "Linear"; "Cosine"; "Sigmoid"; "Nystrom"; "ExplicitNN"; "ImplicitNN"; "SkewedChi2"; "AdditiveChi2";
                   "Indicator"; "Hat"; "RFF"; "RFArcsinh"; "RFLReLU"; "RFHyperbola"; "RFStacked"] ->
     exists pre, cls_of n = kernel_class pre /\ pre <> [] /\ ~ In "SelectDistance" pre) /\
  (forall n, In n ["Exponential"; "Uniform"; "Triangular"; "Epanechnikov"; "Quartic"; "Triweight"; "Tricube"; "Logistic"; "Silverman";
                   "RBF"; "Laplacian"; "Wasserstein"] -> exists pre, cls_of n = distance_kernel pre) /\
  (forall n, In n ["View"; "Level"; "KPCA"; "PPCA"; "WPCA"; "LSSVM"; "Ridge"] -> exists lv, cls_of n = level_class lv) /\
  (forall n, In n ["Euclidean"; "Manhattan"; "Chebyshev"; "Minkowski"; "distance.Wasserstein"] ->
     exists dist, cls_of n = distance_above dist /\ dist <> []) /\
  (forall fresh level k, is_subclass k "Kernel" = false -> new_view fresh level k = Err EAssertionError).
Proof.
  split; [|split; [|split; [|split]]].
  - intros n I. exists (firstn (List.length (cls_of n) - 9) (cls_of n)).
    repeat (destruct I as [<-|I]; [split; [reflexivity | split; [discriminate | intro Q; apply smem_In in Q; vm_compute in Q; discriminate Q]]|]). contradiction I.
  - intros n I. exists (firstn (List.length (cls_of n) - 12) (cls_of n)).
    repeat (destruct I as [<-|I]; [reflexivity|]). contradiction I.
  - intros n I. exists (firstn (List.length (cls_of n) - 11) (cls_of n)).
    repeat (destruct I as [<-|I]; [reflexivity|]). contradiction I.
  - intros n I. exists (firstn (List.length (cls_of n) - 11) (cls_of n)).
    repeat (destruct I as [<-|I]; [split; [reflexivity | discriminate]|]). contradiction I.
  - intros fresh level k H. unfold new_view. rewrite H. reflexivity.
Qed.
Print Assumptions C151_kerch.
(** A user's kernel on the exponential kernel, with the Manhattan distance. *)
Example C151_nontrivial :
  let k := distance_kernel ["Mine"; "Exponential"] in let d := Some (DName "manhattan") in
  let own := ["Mine"; "Exponential"; "SelectDistance"; "Manhattan"; "Distance"; "_Distance"; "Implicit"] in
  own_classes k d own /\ NoDup ("f1" :: "f2" :: "f3" :: ["KPCA"; "_KPCA"; "Level"; "_Level"] ++ "View" :: own ++ below_view) /\
  level_class ["KPCA"; "_KPCA"; "Level"; "_Level"] = cls_of "KPCA" /\
  level_object "f1" "f2" (cls_of "KPCA") k d = Ok ("f2" :: "f1" :: ["KPCA"; "_KPCA"; "Level"; "_Level"; "View"] ++ own ++ below_view).
Proof.
  split; [|split; [|split; reflexivity]].
  - apply (own_distance ["Mine"; "Exponential"] (Some (DName "manhattan")) ["Manhattan"; "Distance"]); [discriminate | reflexivity].
  - apply nodupb_sound. reflexivity.
Qed.

(** * C152 *)

(** A copied kernel finds every attribute where the kernel finds it, for kernels without a
    distance and for those with the Euclidean one. *)
Theorem C152_kernel_partial :
  forall f x l c defs a, NoDup (f :: x :: l) -> x <> "Euclidean" ->
    (is_subclass (x :: l) "SelectDistance" = true -> subseq (cls_of "Euclidean") (x :: l)) ->
    copy_kernel f (x :: l) = Ok c -> defs f = defs x -> found [(f, x)] defs c a = resolve defs (x :: l) a.
Proof. exact copy_kernel_same. Qed.
Print Assumptions C152_kernel_partial.
(** So does a copied level whose kernel is, or is derived from, the default kernel. *)
Theorem C152_level_partial :
  forall f1 f2 x l c defs a, NoDup (f2 :: f1 :: x :: l) -> x <> "RBF" -> f1 <> "Euclidean" ->
    subseq (cls_of "RBF") (x :: l) -> subseq (cls_of "Euclidean") (x :: l) ->
    copy_level f1 f2 (x :: l) = Ok c -> (forall f, f = f1 \/ f = f2 -> defs f = defs x) ->
    found [(f1, x); (f2, x)] defs c a = resolve defs (x :: l) a.
Proof. exact copy_level_same. Qed.
Print Assumptions C152_level_partial.
(** The copy of a level on another kernel is also an RBF kernel ... *)
Theorem C152_classes_refuted :
  forall f1 f2 obj, obj <> [] ->
    NoDup (f1 :: obj ++ ["RBF"; "Exponential"; "SelectDistance"; "Euclidean"; "DistanceSquared"; "_Distance"; "Implicit"] ++ below_view) ->
    copy_level f1 f2 (obj ++ below_view) =
      Ok (f2 :: f1 :: obj ++ ["RBF"; "Exponential"; "SelectDistance"; "Euclidean"; "DistanceSquared"; "_Distance"; "Implicit"] ++ below_view).
Proof. exact copy_level_other. Qed.
Print Assumptions C152_classes_refuted.
(** ... so that the parameters with a slow rate, which the original gives, are no longer found:
    [_Distance._slow_parameters] (kernel/distance/_distance.py:96-98) reads a bandwidth that is
    not there. *)
Theorem C152_slow_refuted :
  forall f1 f2 obj c defs reads attrs, obj <> [] ->
    NoDup (f1 :: obj ++ ["RBF"; "Exponential"; "SelectDistance"; "Euclidean"; "DistanceSquared"; "_Distance"; "Implicit"] ++ below_view) ->
    copy_level f1 f2 (obj ++ below_view) = Ok c ->
    (forall x, defines defs "_slow_parameters" x = true <-> x = "_Distance" \/ x = "Module") ->
    reads "_Distance" "_slow_parameters" = ["_sigma"] -> reads "Module" "_slow_parameters" = [] ->
    f1 <> "_Distance" -> f2 <> "_Distance" -> f1 <> "Module" -> f2 <> "Module" -> ~ In "_sigma" attrs ->
    call defs reads (Object (obj ++ below_view) attrs) "_slow_parameters" = Ok "Module" /\
    call defs reads (Object c attrs) "_slow_parameters" = Err EAttributeError.
Proof. exact copy_level_slow. Qed.
Print Assumptions C152_slow_refuted.
(** No level can be pickled, and no kernel on a distance: their classes cannot be found. *)
Theorem C152_pickle_refuted :
  forall importable f1 f2 f3 lv k d own obj kobj, ~ In f1 importable -> ~ In f2 importable -> ~ In f3 importable ->
    own_classes k d own -> NoDup (f1 :: lv ++ "View" :: own ++ below_view) ->
    level_object f1 f2 (level_class lv) k d = Ok obj -> kernel_object f3 k d = Ok kobj ->
    pickled importable obj = Err (EOther 1) /\
    (is_subclass k "SelectDistance" = true -> pickled importable kobj = Err (EOther 1)) /\
    (is_subclass k "SelectDistance" = false -> In (hd "" k) importable -> pickled importable kobj = Ok (hd "" k)).
Proof.
  intros importable f1 f2 f3 lv k d own obj kobj A B C H N L K.
  rewrite (level_object_order f1 f2 lv k d own H N) in L. injection L as <-.
  assert (NO : NoDup (own ++ below_view)).
  { apply NoDup_cons_iff in N. destruct N as [_ N]. destruct (nodup_split _ _ _ N) as [_ [Q _]]. apply NoDup_cons_iff in Q. exact (proj2 Q). }
  rewrite (kernel_object_order f3 k d own H NO) in K. injection K as <-. unfold made, pickled.
  destruct (is_subclass k "SelectDistance"); cbn [app].
  - rewrite (smem_out _ _ B), (smem_out _ _ C). repeat split; discriminate.
  - rewrite (smem_out _ _ A). repeat split; [discriminate|]. intros _ I. destruct (own_head _ _ _ H) as [own' ->]. cbn [app].
    apply smem_In in I. rewrite I. reflexivity.
Qed.
Print Assumptions C152_pickle_refuted.
Example C152_nontrivial :
  (exists l, level_object "f1" "f2" (cls_of "LSSVM") (cls_of "Laplacian") None = Ok ("f2" :: l) /\
     NoDup ("g2" :: "g1" :: "f2" :: l) /\ ~ subseq (cls_of "RBF") ("f2" :: l)) /\
  (exists l, level_object "f1" "f2" (cls_of "KPCA") (cls_of "RBF") None = Ok ("f2" :: l) /\
     subseq (cls_of "RBF") ("f2" :: l) /\ subseq (cls_of "Euclidean") ("f2" :: l)) /\
  level_object "f1" "f2" (cls_of "KPCA") (cls_of "Linear") None =
    Ok (["f1"; "KPCA"; "_KPCA"; "Level"; "_Level"; "View"; "Linear"; "Explicit"] ++ below_view).
Proof.
  split; [|split].
  - exists (match level_object "f1" "f2" (cls_of "LSSVM") (cls_of "Laplacian") None with Ok c => tail_of c | Err _ => [] end).
    split; [vm_compute; reflexivity|]. split; [apply nodupb_sound; vm_compute; reflexivity|].
    intro S. apply subseq_In with (x := "RBF") in S; [|left; reflexivity]. apply smem_In in S. vm_compute in S. discriminate S.
  - exists (match level_object "f1" "f2" (cls_of "KPCA") (cls_of "RBF") None with Ok c => tail_of c | Err _ => [] end).
    split; [vm_compute; reflexivity|]. split; apply subseqb_sound; vm_compute; reflexivity.
  - reflexivity.
Qed.
