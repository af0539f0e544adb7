(** Python's resolution order and the classes made at run time: proofs. *)
From Verif Require Import Base Classes ClassesSpec.
From Coq Require Import Lia.
Open Scope nat_scope.
Open Scope string_scope.
Open Scope list_scope.

Lemma smem_In : forall x l, smem x l = true <-> In x l.
Proof.
  intros x l. unfold smem. rewrite existsb_exists. split.
  - intros [y [H E]]. apply String.eqb_eq in E. subst y. exact H.
  - intro H. exists x. split; [exact H | apply String.eqb_refl].
Qed.
Lemma smem_out : forall x l, ~ In x l -> smem x l = false.
Proof. intros x l H. destruct (smem x l) eqn:E; [apply smem_In in E; contradiction | reflexivity]. Qed.

(** ** The merge *)
Lemma in_tails_true : forall x ls, in_tails x ls = true <-> exists l, In l ls /\ In x (tail_of l).
Proof.
  intros x ls. unfold in_tails. rewrite existsb_exists. split.
  - intros [l [H E]]. exists l. split; [exact H | apply smem_In; exact E].
  - intros [l [H E]]. exists l. split; [exact H | apply smem_In; exact E].
Qed.
Lemma candidate_ok : forall all ls x, candidate all ls = Some x -> in_tails x all = false /\ exists t, In (x :: t) ls.
Proof.
  intros all ls. induction ls as [|l ls IH]; intros x H; simpl in H; [discriminate H|].
  destruct l as [|y t].
  - destruct (IH _ H) as [A [t B]]. split; [exact A | exists t; right; exact B].
  - destruct (in_tails y all) eqn:E.
    + destruct (IH _ H) as [A [t' B]]. split; [exact A | exists t'; right; exact B].
    + injection H as <-. split; [exact E | exists t; left; reflexivity].
Qed.
Lemma nothing_left_nil : forall ls l, nothing_left ls = true -> In l ls -> l = [].
Proof.
  intros ls l H I. unfold nothing_left in H. rewrite forallb_forall in H. specialize (H l I). destruct l; [reflexivity | discriminate H].
Qed.
Lemma merge_step : forall f ls r, merge f ls = Some r ->
  (nothing_left ls = true /\ r = []) \/
  (exists f' x r', f = S f' /\ candidate ls ls = Some x /\ merge f' (map (drop_head x) ls) = Some r' /\ r = x :: r').
Proof.
  intros f ls r H. destruct f as [|f]; simpl in H; destruct (nothing_left ls) eqn:N.
  - left. split; [reflexivity | congruence].
  - discriminate H.
  - left. split; [reflexivity | congruence].
  - right. destruct (candidate ls ls) as [x|] eqn:C; [|discriminate H].
    destruct (merge f (map (drop_head x) ls)) as [r'|] eqn:M; [|discriminate H].
    injection H as <-. exists f, x, r'. repeat split; auto.
Qed.
Lemma merge_subseq : forall f ls r, merge f ls = Some r -> forall l, In l ls -> subseq l r.
Proof.
  induction f as [|f IH]; intros ls r H l I; apply merge_step in H; destruct H as [[N ->]|[f' [x [r' [F [C [M ->]]]]]]].
  - rewrite (nothing_left_nil _ _ N I). constructor.
  - discriminate F.
  - rewrite (nothing_left_nil _ _ N I). constructor.
  - injection F as <-. assert (I' : In (drop_head x l) (map (drop_head x) ls)) by (apply in_map; exact I).
    specialize (IH _ _ M _ I'). destruct l as [|y t]; [constructor|]. simpl in IH.
    destruct (String.eqb y x) eqn:E.
    + apply String.eqb_eq in E. subst y. constructor. exact IH.
    + apply sub_skip. exact IH.
Qed.
Lemma merge_only : forall f ls r, merge f ls = Some r -> forall y, In y r -> exists l, In l ls /\ In y l.
Proof.
  induction f as [|f IH]; intros ls r H y I; apply merge_step in H; destruct H as [[N ->]|[f' [x [r' [F [C [M ->]]]]]]].
  - contradiction I.
  - discriminate F.
  - contradiction I.
  - injection F as <-. destruct I as [<-|I].
    + destruct (candidate_ok _ _ _ C) as [_ [t J]]. exists (x :: t). split; [exact J | left; reflexivity].
    + destruct (IH _ _ M _ I) as [l [J K]]. apply in_map_iff in J. destruct J as [l0 [<- J]].
      exists l0. split; [exact J|]. destruct l0 as [|z t]; [exact K|]. simpl in K. destruct (String.eqb z x); [right|]; exact K.
Qed.
Lemma merge_nodup : forall f ls r, merge f ls = Some r -> NoDup r.
Proof.
  induction f as [|f IH]; intros ls r H; apply merge_step in H; destruct H as [[N ->]|[f' [x [r' [F [C [M ->]]]]]]].
  - constructor.
  - discriminate F.
  - constructor.
  - injection F as <-. constructor; [|exact (IH _ _ M)]. intro I.
    destruct (merge_only _ _ _ M _ I) as [l [J K]]. apply in_map_iff in J. destruct J as [l0 [<- J]].
    destruct (candidate_ok _ _ _ C) as [T _].
    assert (T' : ~ In x (tail_of l0)).
    { intro Q. assert (in_tails x ls = true) as E by (apply in_tails_true; exists l0; split; assumption). congruence. }
    destruct l0 as [|z t]; [exact K|]. simpl in K. destruct (String.eqb z x) eqn:E; [exact (T' K)|].
    destruct K as [->|K]; [rewrite String.eqb_refl in E; discriminate E | exact (T' K)].
Qed.
Lemma subseq_In : forall A (a b : list A), subseq a b -> forall x, In x a -> In x b.
Proof. intros A a b H. induction H; intros y I; [contradiction I | destruct I as [->|I]; [left; reflexivity | right; auto] | right; auto]. Qed.

Theorem derive_order : forall n bases c, derive n bases = Ok c ->
  exists l, c = n :: l /\ NoDup l /\ (forall b, In b bases -> subseq b l) /\ subseq (heads bases) l /\
  (forall x, In x l <-> exists b, In b bases /\ In x b).
Proof.
  intros n bases c H. unfold derive in H.
  destruct (merge _ (bases ++ [heads bases])) as [l|] eqn:M; [|discriminate H]. injection H as <-.
  exists l. split; [reflexivity|]. split; [exact (merge_nodup _ _ _ M)|].
  assert (S : forall b, In b bases -> subseq b l).
  { intros b I. apply (merge_subseq _ _ _ M). apply in_or_app. left. exact I. }
  split; [exact S|]. split.
  - apply (merge_subseq _ _ _ M). apply in_or_app. right. left. reflexivity.
  - intro x. split.
    + intro I. destruct (merge_only _ _ _ M _ I) as [b [J K]]. apply in_app_or in J. destruct J as [J|[<-|[]]].
      * exists b. split; assumption.
      * unfold heads in K. apply in_flat_map in K. destruct K as [b [B K]]. exists b. split; [exact B|].
        destruct b as [|y t]; [contradiction K|]. destruct K as [->|[]]. left. reflexivity.
    + intros [b [B I]]. exact (subseq_In _ _ _ (S b B) x I).
Qed.

(** ** More fuel *)
Lemma merge_more : forall f ls r k, merge f ls = Some r -> merge (f + k) ls = Some r.
Proof.
  induction f as [|f IH]; intros ls r k H.
  - apply merge_step in H. destruct H as [[N ->]|[f' [x [r' [F _]]]]]; [|discriminate F].
    destruct (0 + k); simpl; rewrite N; reflexivity.
  - apply merge_step in H. destruct H as [[N ->]|[f' [x [r' [F [C [M ->]]]]]]].
    + simpl. rewrite N. reflexivity.
    + injection F as <-. simpl. destruct (nothing_left ls) eqn:N.
      * exfalso. destruct (candidate_ok _ _ _ C) as [_ [t J]]. pose proof (nothing_left_nil _ _ N J) as E. discriminate E.
      * rewrite C, (IH _ _ k M). reflexivity.
Qed.
Lemma merge_up : forall f g ls r, merge f ls = Some r -> f <= g -> merge g ls = Some r.
Proof. intros f g ls r H L. replace g with (f + (g - f)) by lia. apply merge_more. exact H. Qed.

(** ** Two bases *)
Lemma drop_out : forall x l, ~ In x l -> drop_head x l = l.
Proof.
  intros x l H. destruct l as [|y t]; [reflexivity|]. simpl. destruct (String.eqb y x) eqn:E; [|reflexivity].
  apply String.eqb_eq in E. exfalso. apply H. left. exact E.
Qed.
Lemma merge_first : forall x a ls f r,
  ~ In x a -> (forall l, In l ls -> ~ In x (tail_of l)) -> merge f (a :: map (drop_head x) ls) = Some r ->
  merge (S f) ((x :: a) :: ls) = Some (x :: r).
Proof.
  intros x a ls f r A L M. cbn [merge].
  assert (N : nothing_left ((x :: a) :: ls) = false) by reflexivity. rewrite N.
  assert (C : candidate ((x :: a) :: ls) ((x :: a) :: ls) = Some x).
  { cbn [candidate]. assert (T : in_tails x ((x :: a) :: ls) = false).
    { destruct (in_tails x ((x :: a) :: ls)) eqn:T; [|reflexivity]. apply in_tails_true in T. destruct T as [l [[<-|I] J]].
      - exfalso. exact (A J).
      - exfalso. exact (L l I J). }
    rewrite T. reflexivity. }
  rewrite C. cbn [map]. replace (drop_head x (x :: a)) with a by (simpl; rewrite String.eqb_refl; reflexivity).
  rewrite M. reflexivity.
Qed.
(** The first list goes first as long as its elements are nowhere else. *)
Lemma merge_prefix : forall a t ls f r,
  NoDup a -> (forall x, In x a -> ~ In x t /\ forall l, In l ls -> ~ In x l) ->
  merge f (t :: ls) = Some r -> merge (List.length a + f) ((a ++ t) :: ls) = Some (a ++ r).
Proof.
  induction a as [|x a IH]; intros t ls f r N D M; [exact M|].
  cbn [List.length app Nat.add]. apply NoDup_cons_iff in N. destruct N as [NX N].
  destruct (D x (or_introl eq_refl)) as [D1 D2].
  apply merge_first.
  - intro I. apply in_app_or in I. destruct I as [I|I]; [exact (NX I) | exact (D1 I)].
  - intros l I J. apply (D2 l I). destruct l; [exact J | right; exact J].
  - replace (map (drop_head x) ls) with ls.
    + apply IH; [exact N | intros y Y; apply D; right; exact Y | exact M].
    + clear - D2. induction ls as [|l ls IH]; [reflexivity|]. cbn [map]. rewrite <- IH.
      * rewrite drop_out; [reflexivity | apply D2; left; reflexivity].
      * intros l' I. apply D2. right. exact I.
Qed.
(** While the head of the first list is still to come in the second, the second goes first. *)
Lemma merge_second : forall b t0 t u h f r,
  NoDup b -> In t0 u -> (forall x, In x b -> ~ In x (t0 :: t) /\ ~ In x u) ->
  (h = [] \/ exists y b', b = y :: b' /\ h = [y]) ->
  merge f [t0 :: t; u; []] = Some r -> merge (List.length b + f) [t0 :: t; b ++ u; h] = Some (b ++ r).
Proof.
  induction b as [|y b IH]; intros t0 t u h f r N U D H M.
  - destruct H as [->|[y [b' [E _]]]]; [exact M | discriminate E].
  - cbn [List.length app Nat.add merge]. apply NoDup_cons_iff in N. destruct N as [NY N].
    destruct (D y (or_introl eq_refl)) as [D1 D2].
    assert (C : candidate [t0 :: t; y :: b ++ u; h] [t0 :: t; y :: b ++ u; h] = Some y).
    { cbn [candidate]. assert (T0 : in_tails t0 [t0 :: t; y :: b ++ u; h] = true).
      { apply in_tails_true. exists (y :: b ++ u). split; [right; left; reflexivity|]. simpl. apply in_or_app. right. exact U. }
      rewrite T0. assert (T : in_tails y [t0 :: t; y :: b ++ u; h] = false).
      { destruct (in_tails y [t0 :: t; y :: b ++ u; h]) eqn:T; [|reflexivity]. apply in_tails_true in T.
        destruct T as [l [[<-|[<-|[<-|[]]]] J]]; simpl in J.
        - exfalso. apply D1. right. exact J.
        - apply in_app_or in J. destruct J as [J|J]; [contradiction (NY J) | contradiction (D2 J)].
        - destruct H as [->|[z [b' [_ ->]]]]; contradiction J. }
      rewrite T. reflexivity. }
    replace (nothing_left [t0 :: t; y :: b ++ u; h]) with false by reflexivity. rewrite C. cbn [map].
    replace (drop_head y (t0 :: t)) with (t0 :: t) by (symmetry; apply drop_out; exact D1).
    replace (drop_head y (y :: b ++ u)) with (b ++ u) by (simpl; rewrite String.eqb_refl; reflexivity).
    replace (drop_head y h) with (@nil string).
    + rewrite (IH t0 t u [] f r); [reflexivity | exact N | exact U | | left; reflexivity | exact M].
      intros x I. apply D. right. exact I.
    + destruct H as [->|[z [b' [E ->]]]]; [reflexivity|]. injection E as <- _. simpl. rewrite String.eqb_refl. reflexivity.
Qed.
(** A base [a ++ t] and a base [b ++ u] where [t] starts with a class of [u]. *)
Lemma derive_two : forall n x a y b t0 t u f r,
  NoDup ((x :: a) ++ (y :: b)) -> In t0 u ->
  (forall z, In z (x :: a) \/ In z (y :: b) -> ~ In z (t0 :: t) /\ ~ In z u) ->
  merge f [t0 :: t; u; []] = Some r -> f <= S (List.length (t0 :: t)) + List.length u ->
  derive n [(x :: a) ++ t0 :: t; (y :: b) ++ u] = Ok (n :: (x :: a) ++ (y :: b) ++ r).
Proof.
  intros n x a y b t0 t u f r N U D M F. unfold derive.
  pose proof N as N'. cbn [app] in N'. apply NoDup_cons_iff in N'. destruct N' as [NX N1].
  assert (NA : NoDup a) by (clear - N1; induction a as [|z a IH]; [constructor|]; cbn [app] in N1; apply NoDup_cons_iff in N1;
    destruct N1 as [P Q]; constructor; [intro I; apply P; apply in_or_app; left; exact I | exact (IH Q)]).
  assert (NB : NoDup (y :: b)) by (clear - N1; induction a as [|z a IH]; [exact N1|]; cbn [app] in N1; apply NoDup_cons_iff in N1; exact (IH (proj2 N1))).
  assert (DAB : forall z, In z a -> ~ In z (y :: b)).
  { clear - N1. induction a as [|w a IH]; intros z I; [contradiction I|]. cbn [app] in N1. apply NoDup_cons_iff in N1.
    destruct I as [->|I]; [intro J; apply (proj1 N1); apply in_or_app; right; exact J | exact (IH (proj2 N1) z I)]. }
  assert (HH : heads [(x :: a) ++ t0 :: t; (y :: b) ++ u] = [x; y]) by reflexivity. rewrite HH.
  assert (E : merge (S (List.length a + (List.length (y :: b) + f))) ([(x :: a) ++ t0 :: t; (y :: b) ++ u] ++ [[x; y]])
              = Some (x :: a ++ (y :: b) ++ r)).
  { cbn [app]. apply merge_first.
    - intro I. apply in_app_or in I. destruct I as [I|I]; [apply NX; apply in_or_app; left; exact I | exact (proj1 (D x (or_introl (or_introl eq_refl))) I)].
    - intros l [<-|[<-|[]]] J; cbn [tail_of] in J.
      + apply in_app_or in J. destruct J as [J|J]; [apply NX; apply in_or_app; right; right; exact J | exact (proj2 (D x (or_introl (or_introl eq_refl))) J)].
      + destruct J as [<-|[]]. apply NX. apply in_or_app. right. left. reflexivity.
    - cbn [map]. replace (drop_head x (y :: b ++ u)) with ((y :: b) ++ u).
      + replace (drop_head x [x; y]) with [y] by (simpl; rewrite String.eqb_refl; reflexivity).
        apply merge_prefix; [exact NA | |].
        * intros z Z. destruct (D z (or_introl (or_intror Z))) as [D1 D2]. split; [exact D1|].
          intros l [<-|[<-|[]]] J.
          -- apply in_app_or in J. destruct J as [J|J]; [exact (DAB z Z J) | exact (D2 J)].
          -- destruct J as [<-|[]]. exact (DAB _ Z (or_introl eq_refl)).
        * apply (merge_second (y :: b) t0 t u [y] f r); [exact NB | exact U | intros z Z; apply D; right; exact Z | right; exists y, b; split; reflexivity | exact M].
      + symmetry. apply drop_out. intro J. change (y :: b ++ u) with ((y :: b) ++ u) in J. apply in_app_or in J.
        destruct J as [J|J]; [apply NX; apply in_or_app; right; exact J | exact (proj2 (D x (or_introl (or_introl eq_refl))) J)]. }
  rewrite (merge_up _ (size_of ([(x :: a) ++ t0 :: t; (y :: b) ++ u] ++ [[x; y]])) _ _ E); [reflexivity|].
  unfold size_of. cbn [fold_right app List.length]. rewrite !app_length. cbn [List.length]. cbn [List.length] in F. lia.
Qed.

(** ** The classes of levels *)
Lemma derive_two' : forall n a b t u f r,
  a <> [] -> b <> [] -> NoDup (a ++ b) -> (exists t0 t', t = t0 :: t' /\ In t0 u) ->
  (forall z, In z a \/ In z b -> ~ In z t /\ ~ In z u) ->
  merge f [t; u; []] = Some r -> f <= S (List.length t) + List.length u ->
  derive n [a ++ t; b ++ u] = Ok (n :: a ++ b ++ r).
Proof.
  intros n a b t u f r A B N [t0 [t' [-> U]]] D M F.
  destruct a as [|x a]; [contradiction A; reflexivity|]. destruct b as [|y b]; [contradiction B; reflexivity|].
  apply (derive_two n x a y b t0 t' u f r); assumption.
Qed.
Lemma nodup_split : forall A (a b : list A), NoDup (a ++ b) -> NoDup a /\ NoDup b /\ forall z, In z a -> ~ In z b.
Proof.
  intros A a. induction a as [|x a IH]; intros b N.
  - repeat split; [constructor | exact N | intros z []].
  - cbn [app] in N. apply NoDup_cons_iff in N. destruct N as [P Q]. destruct (IH b Q) as [NA [NB D]].
    repeat split; [constructor; [intro I; apply P; apply in_or_app; left; exact I | exact NA] | exact NB |].
    intros z [<-|I]; [intro J; apply P; apply in_or_app; right; exact J | exact (D z I)].
Qed.
Lemma nodup_take : forall A (a b : list A), NoDup a -> NoDup b -> (forall z, In z a -> ~ In z b) -> NoDup (a ++ b).
Proof.
  intros A a. induction a as [|x a IH]; intros b NA NB D; [exact NB|]. cbn [app]. apply NoDup_cons_iff in NA. destruct NA as [P Q].
  constructor; [|apply IH; [exact Q | exact NB | intros z I; apply D; right; exact I]].
  intro I. apply in_app_or in I. destruct I as [I|I]; [exact (P I) | exact (D x (or_introl eq_refl) I)].
Qed.
Lemma kernel_in_view : forall z, In z below_kernel -> In z below_view.
Proof. intros z H. unfold below_kernel, below_view in *. simpl in *. tauto. Qed.

Lemma is_sub_app : forall a b d, is_subclass (a ++ b) d = is_subclass a d || is_subclass b d.
Proof. intros a b d. unfold is_subclass, smem. apply existsb_app. Qed.

Lemma new_view_order : forall fresh lv pre, pre <> [] -> lv <> [] -> NoDup (lv ++ pre ++ below_view) ->
  new_view fresh (lv ++ below_view) (kernel_class pre) = Ok (fresh :: lv ++ pre ++ below_view).
Proof.
  intros fresh lv pre P L N. unfold new_view, kernel_class. rewrite is_sub_app.
  replace (is_subclass below_kernel "Kernel") with true by reflexivity. rewrite orb_true_r.
  rewrite app_assoc in N. destruct (nodup_split _ _ _ N) as [N1 [_ D]].
  apply (derive_two' fresh lv pre below_view below_kernel 11 below_view).
  - exact L.
  - exact P.
  - exact N1.
  - exists "Kernel", (tail_of below_view). split; [reflexivity | left; reflexivity].
  - intros z Z. assert (I : In z (lv ++ pre)) by (apply in_or_app; exact Z). split; [exact (D z I)|].
    intro J. exact (D z I (kernel_in_view _ J)).
  - reflexivity.
  - simpl. lia.
Qed.
Lemma new_view_distance_order : forall fresh lv pre, lv <> [] ->
  NoDup (lv ++ pre ++ "SelectDistance" :: "_Distance" :: "Implicit" :: below_view) ->
  new_view fresh (lv ++ below_view) (distance_kernel pre) = Ok (fresh :: lv ++ pre ++ "SelectDistance" :: "_Distance" :: "Implicit" :: below_view).
Proof.
  intros fresh lv pre L N.
  replace (distance_kernel pre) with (kernel_class (pre ++ ["SelectDistance"; "_Distance"; "Implicit"])).
  - replace (pre ++ "SelectDistance" :: "_Distance" :: "Implicit" :: below_view) with ((pre ++ ["SelectDistance"; "_Distance"; "Implicit"]) ++ below_view) in *
      by (rewrite <- app_assoc; reflexivity).
    apply new_view_order; [destruct pre; discriminate | exact L | exact N].
  - unfold kernel_class, distance_kernel. rewrite <- app_assoc. reflexivity.
Qed.
(** [t] is [below_kernel] or [below_view]. *)
Lemma new_distance_order : forall fresh a dist t, a <> [] -> dist <> [] -> t = below_kernel \/ t = below_view ->
  NoDup (a ++ dist ++ "_Distance" :: "Implicit" :: t) ->
  derive fresh [a ++ "_Distance" :: "Implicit" :: t; distance_above dist] = Ok (fresh :: a ++ dist ++ "_Distance" :: "Implicit" :: t).
Proof.
  intros fresh a dist t A D T N. unfold distance_above. rewrite app_assoc in N. destruct (nodup_split _ _ _ N) as [N1 [_ DJ]].
  assert (U : forall z, In z below_distance -> In z ("_Distance" :: "Implicit" :: t)).
  { intros z H. destruct T as [->| ->]; [exact H|]. unfold below_distance in H. destruct H as [H|[H|H]]; [left; exact H | right; left; exact H |].
    right. right. exact (kernel_in_view _ H). }
  apply (derive_two' fresh a dist ("_Distance" :: "Implicit" :: t) below_distance 13 ("_Distance" :: "Implicit" :: t)).
  - exact A.
  - exact D.
  - exact N1.
  - exists "_Distance", ("Implicit" :: t). split; [reflexivity | left; reflexivity].
  - intros z Z. assert (I : In z (a ++ dist)) by (apply in_or_app; exact Z). split; [exact (DJ z I)|].
    intro J. exact (DJ z I (U z J)).
  - destruct T as [->| ->]; reflexivity.
  - destruct T as [->| ->]; simpl; lia.
Qed.

(** The classes of a kernel object, of a level object. *)
Definition made (fresh : string) (k : cls) : list string := if is_subclass k "SelectDistance" then [fresh] else [].
Lemma plain_not_distance : forall pre, ~ In "SelectDistance" pre -> is_subclass (kernel_class pre) "SelectDistance" = false.
Proof. intros pre H. unfold kernel_class. rewrite is_sub_app. unfold is_subclass at 1. rewrite (smem_out _ _ H). reflexivity. Qed.
Lemma is_distance : forall pre, is_subclass (distance_kernel pre) "SelectDistance" = true.
Proof. intro pre. unfold distance_kernel. rewrite is_sub_app. apply orb_true_r. Qed.
Lemma kernel_new_distance : forall fresh found c d, is_subclass found "SelectDistance" = true ->
  kernel_new fresh found c d = new_distance fresh c (used_distance found d).
Proof.
  intros fresh found c d H. unfold kernel_new, used_distance. rewrite H.
  destruct (is_subclass found "RBF" || is_subclass found "Laplacian"); [reflexivity | destruct d; reflexivity].
Qed.
Lemma own_nodup_kernel : forall own, NoDup (own ++ below_view) -> NoDup (own ++ below_kernel).
Proof.
  intros own N. destruct (nodup_split _ _ _ N) as [A [B D]]. apply nodup_take; [exact A | | intros z I J; exact (D z I (kernel_in_view _ J))].
  repeat constructor; simpl; intuition discriminate.
Qed.
Theorem kernel_object_order : forall fresh k d own, own_classes k d own -> NoDup (own ++ below_view) ->
  kernel_object fresh k d = Ok (made fresh k ++ own ++ below_kernel).
Proof.
  intros fresh k d own H N. apply own_nodup_kernel in N. unfold kernel_object. destruct H as [pre d P S|pre d dist P E].
  - unfold kernel_new, made. rewrite (plain_not_distance _ S). reflexivity.
  - rewrite kernel_new_distance by apply is_distance. unfold new_distance. rewrite E. cbn [bind].
    unfold made. rewrite is_distance. unfold distance_kernel.
    replace (pre ++ "SelectDistance" :: below_distance) with ((pre ++ ["SelectDistance"]) ++ "_Distance" :: "Implicit" :: below_kernel)
      by (rewrite <- app_assoc; reflexivity).
    replace ((pre ++ "SelectDistance" :: dist ++ ["_Distance"; "Implicit"]) ++ below_kernel) with ((pre ++ ["SelectDistance"]) ++ dist ++ "_Distance" :: "Implicit" :: below_kernel) in *
      by (repeat (cbn [app]; rewrite <- app_assoc); reflexivity).
    rewrite new_distance_order; [reflexivity | destruct pre; discriminate | exact P | left; reflexivity | exact N].
Qed.
Theorem level_object_order : forall f1 f2 lv k d own, own_classes k d own -> NoDup (f1 :: lv ++ "View" :: own ++ below_view) ->
  level_object f1 f2 (level_class lv) k d = Ok (made f2 k ++ f1 :: lv ++ "View" :: own ++ below_view).
Proof.
  intros f1 f2 lv k d own H N. unfold level_object, level_class.
  replace (lv ++ "View" :: below_view) with ((lv ++ ["View"]) ++ below_view) by (rewrite <- app_assoc; reflexivity).
  assert (L : lv ++ ["View"] <> []) by (destruct lv; discriminate).
  destruct H as [pre d P S|pre d dist P E].
  - replace (lv ++ "View" :: pre ++ below_view) with ((lv ++ ["View"]) ++ pre ++ below_view) in * by (rewrite <- app_assoc; reflexivity).
    rewrite new_view_order; [|exact P | exact L | exact (proj2 (proj1 (NoDup_cons_iff _ _) N))].
    cbn [bind]. unfold kernel_new, made. rewrite (plain_not_distance _ S). reflexivity.
  - replace (f1 :: lv ++ "View" :: (pre ++ "SelectDistance" :: dist ++ ["_Distance"; "Implicit"]) ++ below_view)
      with ((f1 :: (lv ++ ["View"]) ++ pre ++ ["SelectDistance"]) ++ dist ++ "_Distance" :: "Implicit" :: below_view) in *
      by (repeat (cbn [app]; rewrite <- app_assoc); reflexivity).
    rewrite new_view_distance_order; [|exact L|].
    + cbn [bind]. rewrite kernel_new_distance by apply is_distance. unfold new_distance. rewrite E. cbn [bind].
      replace (f1 :: (lv ++ ["View"]) ++ pre ++ "SelectDistance" :: "_Distance" :: "Implicit" :: below_view)
        with ((f1 :: (lv ++ ["View"]) ++ pre ++ ["SelectDistance"]) ++ "_Distance" :: "Implicit" :: below_view)
        by (cbn [app]; rewrite <- !app_assoc; reflexivity).
      unfold made. rewrite is_distance. rewrite new_distance_order; [reflexivity | discriminate | exact P | right; reflexivity | exact N].
    + replace ((lv ++ ["View"]) ++ pre ++ "SelectDistance" :: "_Distance" :: "Implicit" :: below_view)
        with (((lv ++ ["View"]) ++ pre ++ ["SelectDistance"]) ++ "_Distance" :: "Implicit" :: below_view) by (rewrite <- !app_assoc; reflexivity).
      cbn [app] in N. apply NoDup_cons_iff in N. destruct N as [_ N]. destruct (nodup_split _ _ _ N) as [NA [NB D]].
      destruct (nodup_split _ _ _ NB) as [_ [NC _]].
      apply nodup_take; [exact NA | exact NC |]. intros z I J. apply (D z I). apply in_or_app. right. exact J.
Qed.

(** ** Attributes *)
Lemma resolve_app : forall defs a b x, resolve defs (a ++ b) x = match resolve defs a x with Some c => Some c | None => resolve defs b x end.
Proof. intros defs a b x. unfold resolve. induction a as [|c a IH]; [reflexivity|]. simpl. destruct (defines defs x c); [reflexivity | exact IH]. Qed.
Lemma resolve_In : forall defs l x c, resolve defs l x = Some c -> In c l /\ defines defs x c = true.
Proof. intros defs l x c H. unfold resolve in H. apply find_some in H. exact H. Qed.
Lemma after_app : forall c a b, ~ In c a -> after c (a ++ c :: b) = b.
Proof.
  intros c a b. induction a as [|x a IH]; intro H; simpl.
  - rewrite String.eqb_refl. reflexivity.
  - destruct (String.eqb x c) eqn:E; [apply String.eqb_eq in E; exfalso; apply H; left; exact E|].
    apply IH. intro I. apply H. right. exact I.
Qed.
Lemma own_head : forall k d own, own_classes k d own -> exists own', own = hd "" k :: own'.
Proof.
  intros k d own H. destruct H as [pre d P S|pre d dist P E].
  - destruct pre as [|x pre]; [contradiction P; reflexivity|]. exists pre. reflexivity.
  - destruct pre as [|x pre]; eexists; reflexivity.
Qed.
Lemma copies_id : forall f b c, c <> f -> copies_of [(f, b)] c = c.
Proof. intros f b c H. unfold copies_of. simpl. destruct (String.eqb f c) eqn:E; [apply String.eqb_eq in E; congruence | reflexivity]. Qed.
Lemma found_kernel : forall fresh k d own kobj defs a, own_classes k d own -> NoDup (own ++ below_view) -> ~ In fresh (own ++ below_view) ->
  kernel_object fresh k d = Ok kobj -> defs fresh = defs (hd "" k) ->
  found [(fresh, hd "" k)] defs kobj a = resolve defs (own ++ below_kernel) a.
Proof.
  intros fresh k d own kobj defs a H N F K E. rewrite (kernel_object_order fresh k d own H N) in K. injection K as <-.
  unfold found. rewrite resolve_app.
  assert (ID : option_map (copies_of [(fresh, hd "" k)]) (resolve defs (own ++ below_kernel) a) = resolve defs (own ++ below_kernel) a).
  { destruct (resolve defs (own ++ below_kernel) a) as [c|] eqn:R; [|reflexivity]. simpl. rewrite copies_id; [reflexivity|].
    intro Q. subst c. apply resolve_In in R. destruct R as [I _]. apply F. apply in_app_or in I. apply in_or_app.
    destruct I as [I|I]; [left; exact I | right; exact (kernel_in_view _ I)]. }
  unfold made. destruct (is_subclass k "SelectDistance"); [|exact ID].
  unfold resolve at 1. simpl. destruct (defines defs a fresh) eqn:D; [|exact ID].
  simpl. unfold copies_of. simpl. rewrite String.eqb_refl.
  destruct (own_head _ _ _ H) as [own' O]. subst own. unfold defines in D. rewrite E in D.
  unfold resolve. simpl. unfold defines. rewrite D. reflexivity.
Qed.
Theorem kernel_of_level : forall f1 f2 f3 lv k d own obj kobj defs a,
  own_classes k d own -> NoDup (f1 :: f2 :: f3 :: lv ++ "View" :: own ++ below_view) ->
  level_object f1 f2 (level_class lv) k d = Ok obj -> kernel_object f3 k d = Ok kobj -> defs f3 = defs (hd "" k) ->
  resolve_super defs obj "View" a =
    match found [(f3, hd "" k)] defs kobj a with
    | Some c => if smem c below_sample && defines defs a "_View" then Some "_View" else Some c
    | None => if defines defs a "_View" then Some "_View" else None
    end.
Proof.
  intros f1 f2 f3 lv k d own obj kobj defs a H N L K E.
  apply NoDup_cons_iff in N. destruct N as [N1 N]. apply NoDup_cons_iff in N. destruct N as [N2 N].
  apply NoDup_cons_iff in N. destruct N as [N3 N].
  assert (NO : NoDup (own ++ below_view)).
  { destruct (nodup_split _ _ _ N) as [_ [Q _]]. apply NoDup_cons_iff in Q. exact (proj2 Q). }
  assert (F3 : ~ In f3 (own ++ below_view)) by (intro I; apply N3; apply in_or_app; right; right; exact I).
  rewrite (found_kernel f3 k d own kobj defs a H NO F3 K E).
  rewrite (level_object_order f1 f2 lv k d own H) in L.
  2:{ constructor; [|exact N]. intro I. apply N1. right. right. exact I. }
  injection L as <-. unfold resolve_super.
  assert (V : ~ In "View" (made f2 k ++ f1 :: lv)).
  { intro I. apply in_app_or in I. destruct I as [I|I].
    - unfold made in I. destruct (is_subclass k "SelectDistance"); [|contradiction I]. destruct I as [I|[]]. subst f2.
      apply N2. right. apply in_or_app. right. left. reflexivity.
    - destruct I as [I|I].
      + subst f1. apply N1. right. right. apply in_or_app. right. left. reflexivity.
      + destruct (nodup_split _ _ _ N) as [_ [_ D]]. exact (D _ I (or_introl eq_refl)). }
  replace (made f2 k ++ f1 :: lv ++ "View" :: own ++ below_view) with ((made f2 k ++ f1 :: lv) ++ "View" :: own ++ below_view)
    by (rewrite <- app_assoc; reflexivity).
  rewrite after_app by exact V. rewrite !resolve_app.
  destruct (resolve defs own a) as [c|] eqn:R.
  - assert (B : smem c below_sample = false).
    { apply smem_out. intro I. apply resolve_In in R. destruct R as [J _]. destruct (nodup_split _ _ _ NO) as [_ [_ D]].
      apply (D _ J). unfold below_view. right. right. right. exact I. }
    rewrite B. reflexivity.
  - unfold resolve, below_view, below_kernel. cbn [find].
    destruct (defines defs a "Kernel"); [reflexivity|]. destruct (defines defs a "_BaseKernel"); [reflexivity|].
    destruct (defines defs a "_View") eqn:DV.
    + destruct (find (defines defs a) below_sample) as [c|] eqn:FS; [|reflexivity].
      apply find_some in FS. destruct FS as [I _]. apply smem_In in I. rewrite I. reflexivity.
    + destruct (find (defines defs a) below_sample) as [c|]; [rewrite andb_false_r; reflexivity | reflexivity].
Qed.
Theorem level_first : forall f1 f2 lv k d own obj defs a,
  own_classes k d own -> NoDup (f1 :: f2 :: lv ++ "View" :: own ++ below_view) ->
  level_object f1 f2 (level_class lv) k d = Ok obj -> (forall f, f = f1 \/ f = f2 -> defs f = defs (hd "View" lv)) ->
  found [(f1, hd "View" lv); (f2, hd "View" lv)] defs obj a =
    match resolve defs (lv ++ ["View"]) a with Some c => Some c | None => resolve_super defs obj "View" a end.
Proof.
  intros f1 f2 lv k d own obj defs a H N L E.
  apply NoDup_cons_iff in N. destruct N as [N1 N]. apply NoDup_cons_iff in N. destruct N as [N2 N].
  rewrite (level_object_order f1 f2 lv k d own H) in L.
  2:{ constructor; [|exact N]. intro I. apply N1. right. exact I. }
  injection L as <-.
  assert (V : ~ In "View" (made f2 k ++ f1 :: lv)).
  { intro I. apply in_app_or in I. destruct I as [I|I].
    - unfold made in I. destruct (is_subclass k "SelectDistance"); [|contradiction I]. destruct I as [I|[]]. subst f2.
      apply N2. apply in_or_app. right. left. reflexivity.
    - destruct I as [I|I].
      + subst f1. apply N1. right. apply in_or_app. right. left. reflexivity.
      + destruct (nodup_split _ _ _ N) as [_ [_ D]]. exact (D _ I (or_introl eq_refl)). }
  assert (ID : forall c, In c (lv ++ "View" :: own ++ below_view) -> copies_of [(f1, hd "View" lv); (f2, hd "View" lv)] c = c).
  { intros c I. unfold copies_of. simpl. destruct (String.eqb f1 c) eqn:E1; [apply String.eqb_eq in E1; subst c; exfalso; apply N1; right; exact I|].
    destruct (String.eqb f2 c) eqn:E2; [apply String.eqb_eq in E2; subst c; exfalso; exact (N2 I) | reflexivity]. }
  unfold resolve_super.
  assert (A : after "View" (made f2 k ++ f1 :: lv ++ "View" :: own ++ below_view) = own ++ below_view).
  { replace (made f2 k ++ f1 :: lv ++ "View" :: own ++ below_view) with ((made f2 k ++ f1 :: lv) ++ "View" :: own ++ below_view)
      by (rewrite <- app_assoc; reflexivity). apply after_app. exact V. }
  rewrite A. unfold found.
  assert (T : option_map (copies_of [(f1, hd "View" lv); (f2, hd "View" lv)]) (resolve defs (lv ++ "View" :: own ++ below_view) a)
              = match resolve defs (lv ++ ["View"]) a with Some c => Some c | None => resolve defs (own ++ below_view) a end).
  { replace (lv ++ "View" :: own ++ below_view) with ((lv ++ ["View"]) ++ own ++ below_view) by (rewrite <- app_assoc; reflexivity).
    rewrite resolve_app. destruct (resolve defs (lv ++ ["View"]) a) as [c|] eqn:R.
    - simpl. rewrite ID; [reflexivity|]. apply resolve_In in R. destruct R as [I _]. apply in_app_or in I. apply in_or_app.
      destruct I as [I|[<-|[]]]; [left; exact I | right; left; reflexivity].
    - destruct (resolve defs (own ++ below_view) a) as [c|] eqn:Q; [|reflexivity]. simpl. rewrite ID; [reflexivity|].
      apply resolve_In in Q. apply in_or_app. right. right. exact (proj1 Q). }
  assert (HD : defines defs a (hd "View" lv) = true -> resolve defs (lv ++ ["View"]) a = Some (hd "View" lv)).
  { intro D. destruct lv as [|x lv]; unfold resolve; simpl; simpl in D; rewrite D; reflexivity. }
  assert (C1 : copies_of [(f1, hd "View" lv); (f2, hd "View" lv)] f1 = hd "View" lv) by (unfold copies_of; simpl; rewrite String.eqb_refl; reflexivity).
  assert (C2 : copies_of [(f1, hd "View" lv); (f2, hd "View" lv)] f2 = hd "View" lv).
  { unfold copies_of. simpl. destruct (String.eqb f1 f2); [reflexivity|]. rewrite String.eqb_refl. reflexivity. }
  assert (M1 : option_map (copies_of [(f1, hd "View" lv); (f2, hd "View" lv)]) (resolve defs (f1 :: lv ++ "View" :: own ++ below_view) a)
               = match resolve defs (lv ++ ["View"]) a with Some c => Some c | None => resolve defs (own ++ below_view) a end).
  { unfold resolve at 1. cbn [find]. destruct (defines defs a f1) eqn:D1; [|exact T].
    unfold defines in D1. rewrite (E f1 (or_introl eq_refl)) in D1. rewrite (HD D1). simpl. rewrite C1. reflexivity. }
  unfold made. destruct (is_subclass k "SelectDistance"); [|exact M1].
  cbn [app]. unfold resolve at 1. cbn [find]. destruct (defines defs a f2) eqn:D2; [|exact M1].
  unfold defines in D2. rewrite (E f2 (or_intror eq_refl)) in D2. rewrite (HD D2). simpl. rewrite C2. reflexivity.
Qed.

(** ** Copies *)
Lemma subseq_refl : forall A (l : list A), subseq l l.
Proof. induction l; constructor; assumption. Qed.
Lemma subseq_drop : forall x l t, ~ In x t -> subseq l (x :: t) -> subseq (drop_head x l) t /\ ~ In x (tail_of l).
Proof.
  intros x l t N H. inversion H as [b|y a b S|y a b S].
  - split; [constructor | intros []].
  - simpl. rewrite String.eqb_refl. split; [exact S|]. intro I. exact (N (subseq_In _ _ _ S _ I)).
  - assert (O : ~ In x l) by (intro I; exact (N (subseq_In _ _ _ S _ I))).
    split; [rewrite (drop_out _ _ O); exact S|]. intro I. apply O. destruct l; [exact I | right; exact I].
Qed.
(** A base whose order contains the others in order. *)
Lemma merge_absorbed : forall l ls, NoDup l -> (forall b, In b ls -> subseq b l) -> merge (List.length l) (l :: ls) = Some l.
Proof.
  induction l as [|x l IH]; intros ls N H.
  - assert (E : nothing_left ([] :: ls) = true).
    { simpl. apply forallb_forall. intros b I. specialize (H b I). inversion H. reflexivity. }
    simpl. simpl in E. rewrite E. reflexivity.
  - cbn [List.length]. apply NoDup_cons_iff in N. destruct N as [NX N].
    apply merge_first; [exact NX | intros b I; exact (proj2 (subseq_drop _ _ _ NX (H b I))) |].
    apply IH; [exact N|]. intros b I. apply in_map_iff in I. destruct I as [b0 [<- I]].
    exact (proj1 (subseq_drop _ _ _ NX (H b0 I))).
Qed.
Lemma derive_absorbed : forall n x l k, NoDup (x :: l) -> subseq k (x :: l) -> hd_error k <> Some x ->
  derive n [x :: l; k] = Ok (n :: x :: l).
Proof.
  intros n x l k N S H. unfold derive.
  assert (SH : subseq (heads [x :: l; k]) (x :: l)).
  { unfold heads. simpl. destruct k as [|y k]; simpl; [constructor; constructor|].
    constructor. inversion S as [b|z a b S'|z a b S']; subst.
    - exfalso. apply H. reflexivity.
    - clear - S'. remember (y :: k) as q eqn:Q. revert y k Q. induction S'; intros y k Q; [discriminate Q | injection Q as -> ->; constructor; constructor |].
      apply sub_skip. eapply IHS'. exact Q. }
  assert (M : merge (List.length (x :: l)) ((x :: l) :: [k; heads [x :: l; k]]) = Some (x :: l)).
  { apply merge_absorbed; [exact N|]. intros b [<-|[<-|[]]]; assumption. }
  change ([x :: l; k] ++ [heads [x :: l; k]]) with ((x :: l) :: [k; heads [x :: l; k]]).
  rewrite (merge_up _ (size_of ((x :: l) :: [k; heads [x :: l; k]])) _ _ M); [reflexivity|].
  unfold size_of. cbn [fold_right]. lia.
Qed.
Lemma resolve_copy : forall defs f x l a, f <> x -> ~ In f l -> defs f = defs x ->
  found [(f, x)] defs (f :: x :: l) a = resolve defs (x :: l) a.
Proof.
  intros defs f x l a FX F E. unfold found, resolve at 1. cbn [find]. destruct (defines defs a f) eqn:D.
  - unfold defines in D. rewrite E in D. simpl. unfold copies_of. simpl. rewrite String.eqb_refl.
    unfold resolve. simpl. unfold defines. rewrite D. reflexivity.
  - change (option_map (copies_of [(f, x)]) (resolve defs (x :: l) a) = resolve defs (x :: l) a).
    destruct (resolve defs (x :: l) a) as [c|] eqn:R; [|reflexivity]. simpl. rewrite copies_id; [reflexivity|].
    intro Q. subst c. apply resolve_In in R. destruct R as [[I|I] _]; [congruence | exact (F I)].
Qed.
Theorem copy_level_order : forall f1 f2 x l, NoDup (f1 :: x :: l) -> x <> "RBF" -> f1 <> "Euclidean" ->
  subseq (cls_of "RBF") (x :: l) -> subseq (cls_of "Euclidean") (x :: l) ->
  copy_level f1 f2 (x :: l) = Ok (f2 :: f1 :: x :: l).
Proof.
  intros f1 f2 x l N XR FE SR SE. unfold copy_level, level_object, new_view.
  replace (is_subclass (cls_of "RBF") "Kernel") with true by reflexivity.
  apply NoDup_cons_iff in N as N'. destruct N' as [NF NX].
  rewrite (derive_absorbed f1 x l (cls_of "RBF")); [|exact NX | exact SR | simpl; congruence].
  cbn [bind]. rewrite kernel_new_distance by reflexivity. unfold new_distance.
  replace (distance_class (used_distance (cls_of "RBF") None)) with (Ok (cls_of "Euclidean")) by reflexivity. cbn [bind].
  rewrite (derive_absorbed f2 f1 (x :: l) (cls_of "Euclidean")); [reflexivity | exact N | apply sub_skip; exact SE | simpl; congruence].
Qed.
Theorem copy_level_same : forall f1 f2 x l c defs a, NoDup (f2 :: f1 :: x :: l) -> x <> "RBF" -> f1 <> "Euclidean" ->
  subseq (cls_of "RBF") (x :: l) -> subseq (cls_of "Euclidean") (x :: l) ->
  copy_level f1 f2 (x :: l) = Ok c -> (forall f, f = f1 \/ f = f2 -> defs f = defs x) ->
  found [(f1, x); (f2, x)] defs c a = resolve defs (x :: l) a.
Proof.
  intros f1 f2 x l c defs a N XR FE SR SE C E. apply NoDup_cons_iff in N. destruct N as [N2 N].
  rewrite (copy_level_order f1 f2 x l N XR FE SR SE) in C. injection C as <-.
  apply NoDup_cons_iff in N. destruct N as [N1 N].
  assert (ID : option_map (copies_of [(f1, x); (f2, x)]) (resolve defs (x :: l) a) = resolve defs (x :: l) a).
  { destruct (resolve defs (x :: l) a) as [c|] eqn:R; [|reflexivity]. simpl. apply resolve_In in R. destruct R as [I _].
    unfold copies_of. simpl. destruct (String.eqb f1 c) eqn:E1; [apply String.eqb_eq in E1; subst c; contradiction (N1 I)|].
    destruct (String.eqb f2 c) eqn:E2; [apply String.eqb_eq in E2; subst c; exfalso; apply N2; right; exact I | reflexivity]. }
  assert (HD : defines defs a x = true -> resolve defs (x :: l) a = Some x) by (intro D; unfold resolve; simpl; rewrite D; reflexivity).
  unfold found, resolve at 1. cbn [find]. destruct (defines defs a f2) eqn:D2.
  { unfold defines in D2. rewrite (E f2 (or_intror eq_refl)) in D2. rewrite (HD D2). simpl. unfold copies_of. simpl.
    destruct (String.eqb f1 f2); [reflexivity|]. rewrite String.eqb_refl. reflexivity. }
  destruct (defines defs a f1) eqn:D1.
  { unfold defines in D1. rewrite (E f1 (or_introl eq_refl)) in D1. rewrite (HD D1). simpl. unfold copies_of. simpl. rewrite String.eqb_refl. reflexivity. }
  exact ID.
Qed.
Theorem copy_kernel_same : forall f x l c defs a, NoDup (f :: x :: l) -> x <> "Euclidean" ->
  (is_subclass (x :: l) "SelectDistance" = true -> subseq (cls_of "Euclidean") (x :: l)) ->
  copy_kernel f (x :: l) = Ok c -> defs f = defs x -> found [(f, x)] defs c a = resolve defs (x :: l) a.
Proof.
  intros f x l c defs a N XE S C E. unfold copy_kernel in C. apply NoDup_cons_iff in N. destruct N as [NF N].
  destruct (is_subclass (x :: l) "SelectDistance") eqn:SD.
  - rewrite kernel_new_distance in C by exact SD. unfold new_distance in C.
    assert (U : distance_class (used_distance (x :: l) None) = Ok (cls_of "Euclidean")).
    { unfold used_distance. destruct (is_subclass (x :: l) "RBF" || is_subclass (x :: l) "Laplacian"); reflexivity. }
    rewrite U in C. cbn [bind] in C.
    rewrite (derive_absorbed f x l (cls_of "Euclidean")) in C; [|exact N | exact (S eq_refl) | simpl; congruence].
    injection C as <-. apply resolve_copy; [intro Q; apply NF; left; congruence | intro I; apply NF; right; exact I | exact E].
  - unfold kernel_new in C. rewrite SD in C. injection C as <-. unfold found.
    destruct (resolve defs (x :: l) a) as [c|] eqn:R; [|reflexivity]. simpl. rewrite copies_id; [reflexivity|].
    intro Q. subst c. apply resolve_In in R. exact (NF (proj1 R)).
Qed.
(** A level on a kernel that is neither implicit nor built on a distance. *)
Theorem copy_level_other : forall f1 f2 obj, obj <> [] -> NoDup (f1 :: obj ++ ["RBF"; "Exponential"; "SelectDistance"; "Euclidean"; "DistanceSquared"; "_Distance"; "Implicit"] ++ below_view) ->
  copy_level f1 f2 (obj ++ below_view) =
    Ok (f2 :: f1 :: obj ++ ["RBF"; "Exponential"; "SelectDistance"; "Euclidean"; "DistanceSquared"; "_Distance"; "Implicit"] ++ below_view).
Proof.
  intros f1 f2 obj O N. unfold copy_level, level_object.
  apply NoDup_cons_iff in N as N'. destruct N' as [NF NO].
  change (cls_of "RBF") with (kernel_class ["RBF"; "Exponential"; "SelectDistance"; "_Distance"; "Implicit"]).
  rewrite new_view_order; [|discriminate | exact O |].
  - cbn [bind]. rewrite kernel_new_distance by reflexivity. unfold new_distance.
    replace (distance_class (used_distance (kernel_class ["RBF"; "Exponential"; "SelectDistance"; "_Distance"; "Implicit"]) None))
      with (Ok (distance_above ["Euclidean"; "DistanceSquared"])) by reflexivity. cbn [bind].
    replace (f1 :: obj ++ ["RBF"; "Exponential"; "SelectDistance"; "_Distance"; "Implicit"] ++ below_view)
      with ((f1 :: obj ++ ["RBF"; "Exponential"; "SelectDistance"]) ++ "_Distance" :: "Implicit" :: below_view)
      by (cbn [app]; rewrite <- app_assoc; reflexivity).
    rewrite new_distance_order; [|discriminate | discriminate | right; reflexivity |].
    + f_equal. f_equal. cbn [app]. rewrite <- app_assoc. reflexivity.
    + cbn [app]. rewrite <- app_assoc. exact N.
  - assert (P : forall z, In z (["RBF"; "Exponential"; "SelectDistance"; "_Distance"; "Implicit"] ++ below_view) ->
      In z (["RBF"; "Exponential"; "SelectDistance"; "Euclidean"; "DistanceSquared"; "_Distance"; "Implicit"] ++ below_view)).
    { intros z I. cbn [app] in *. simpl in *. tauto. }
    destruct (nodup_split _ _ _ NO) as [A [_ D]]. apply nodup_take; [exact A | | intros z I J; exact (D z I (P z J))].
    repeat constructor; simpl; intuition discriminate.
Qed.

(** The copy finds [_slow_parameters] in [_Distance]. *)
Theorem copy_level_slow : forall f1 f2 obj c defs reads attrs, obj <> [] ->
  NoDup (f1 :: obj ++ ["RBF"; "Exponential"; "SelectDistance"; "Euclidean"; "DistanceSquared"; "_Distance"; "Implicit"] ++ below_view) ->
  copy_level f1 f2 (obj ++ below_view) = Ok c ->
  (forall x, defines defs "_slow_parameters" x = true <-> x = "_Distance" \/ x = "Module") ->
  reads "_Distance" "_slow_parameters" = ["_sigma"] -> reads "Module" "_slow_parameters" = [] ->
  f1 <> "_Distance" -> f2 <> "_Distance" -> f1 <> "Module" -> f2 <> "Module" -> ~ In "_sigma" attrs ->
  call defs reads (Object (obj ++ below_view) attrs) "_slow_parameters" = Ok "Module" /\
  call defs reads (Object c attrs) "_slow_parameters" = Err EAttributeError.
Proof.
  intros f1 f2 obj c defs reads attrs O N C D R1 R2 F1 F2 G1 G2 A.
  rewrite (copy_level_other f1 f2 obj O N) in C. injection C as <-.
  apply NoDup_cons_iff in N. destruct N as [_ N]. destruct (nodup_split _ _ _ N) as [_ [_ DJ]].
  assert (NO : forall x, x <> "_Distance" -> x <> "Module" -> defines defs "_slow_parameters" x = false).
  { intros x X1 X2. destruct (defines defs "_slow_parameters" x) eqn:E; [|reflexivity]. apply D in E. destruct E; contradiction. }
  assert (OBJ : resolve defs obj "_slow_parameters" = None).
  { destruct (resolve defs obj "_slow_parameters") as [x|] eqn:E; [|reflexivity]. apply resolve_In in E. destruct E as [I E].
    apply D in E. exfalso. destruct E as [-> | ->]; apply (DJ _ I); simpl; tauto. }
  assert (DD : defines defs "_slow_parameters" "_Distance" = true) by (apply D; left; reflexivity).
  assert (DM : defines defs "_slow_parameters" "Module" = true) by (apply D; right; reflexivity).
  split; unfold call; cbn [o_cls o_attrs].
  - rewrite resolve_app, OBJ. unfold resolve, below_view, below_sample. cbn [find].
    rewrite !NO by discriminate. rewrite DM, R2. reflexivity.
  - change (f2 :: f1 :: obj ++ ?r) with ([f2; f1] ++ obj ++ r). rewrite !resolve_app.
    assert (E1 : resolve defs [f2; f1] "_slow_parameters" = None) by (unfold resolve; cbn [find]; rewrite !NO by assumption; reflexivity).
    rewrite E1, OBJ. unfold resolve at 1. cbn [find]. rewrite !NO by discriminate. rewrite DD, R1. cbn [forallb].
    rewrite (smem_out _ _ A). reflexivity.
Qed.
Lemma subseqb_sound : forall b a, subseqb a b = true -> subseq a b.
Proof.
  induction b as [|y b IH]; intros a H; destruct a as [|x a]; simpl in H; [constructor | discriminate H | constructor |].
  destruct (String.eqb x y) eqn:E; [apply String.eqb_eq in E; subst y; constructor; apply IH; exact H | apply sub_skip; apply IH; exact H].
Qed.
Lemma nodupb_sound : forall l, nodupb l = true -> NoDup l.
Proof.
  induction l as [|x l IH]; intro H; [constructor|]. simpl in H. apply andb_true_iff in H. destruct H as [H1 H2].
  constructor; [|apply IH; exact H2]. intro I. apply smem_In in I. rewrite I in H1. discriminate H1.
Qed.
