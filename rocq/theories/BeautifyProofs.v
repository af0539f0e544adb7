(** Proofs about [Beautify.v]. *)
From Verif Require Import Base BaseProofs Beautify BeautifySpec.
Open Scope list_scope.

Lemma cls_eqb_eq a b : cls_eqb a b = true <-> a = b.
Proof. destruct a, b; cbn; split; congruence. Qed.
Lemma cls_eqb_neq a b : cls_eqb a b = false <-> a <> b.
Proof. destruct a, b; cbn; split; congruence. Qed.
Lemma cls_eqb_refl a : cls_eqb a a = true.
Proof. now destruct a. Qed.

(** ** The specification of merging *)

Lemma no_repeat_merged l : no_repeat l -> merged l = l.
Proof.
  induction l as [|a l IH]; [reflexivity|]. intros [Hh Ht]. specialize (IH Ht).
  destruct l as [|b l]; [reflexivity|].
  change (merged (a :: b :: l)) with (if cls_eqb a b then merged (b :: l) else a :: merged (b :: l)).
  apply cls_eqb_neq in Hh. rewrite Hh, IH. reflexivity.
Qed.

Lemma merged_head a l : exists l', merged (a :: l) = a :: l'.
Proof.
  revert a. induction l as [|b l IH]; intros a.
  - now exists [].
  - change (merged (a :: b :: l)) with (if cls_eqb a b then merged (b :: l) else a :: merged (b :: l)).
    destruct (cls_eqb a b) eqn:E; [|eauto].
    apply cls_eqb_eq in E as ->. apply IH.
Qed.

Lemma merged_no_repeat l : no_repeat (merged l).
Proof.
  induction l as [|a l IH]; [exact I|]. destruct l as [|b l]; [cbn; auto|].
  change (merged (a :: b :: l)) with (if cls_eqb a b then merged (b :: l) else a :: merged (b :: l)).
  destruct (cls_eqb a b) eqn:E; [exact IH|].
  destruct (merged_head b l) as [l' Hl']. rewrite Hl' in *. split; [now apply cls_eqb_neq|exact IH].
Qed.

Lemma merged_one_repeat l1 a l2 :
  no_repeat (l1 ++ a :: l2) -> merged (l1 ++ a :: a :: l2) = l1 ++ a :: l2.
Proof.
  induction l1 as [|b l1 IH]; intros H.
  - cbn [app]. change (merged (a :: a :: l2)) with (if cls_eqb a a then merged (a :: l2) else a :: merged (a :: l2)).
    rewrite cls_eqb_refl. now apply no_repeat_merged.
  - destruct H as [Hh Ht]. specialize (IH Ht). cbn [app].
    destruct l1 as [|c l1]; cbn [app] in *.
    + change (merged (b :: a :: a :: l2)) with (if cls_eqb b a then merged (a :: a :: l2) else b :: merged (a :: a :: l2)).
      apply cls_eqb_neq in Hh. rewrite Hh. now rewrite IH.
    + change (merged (b :: c :: l1 ++ a :: a :: l2)) with
        (if cls_eqb b c then merged (c :: l1 ++ a :: a :: l2) else b :: merged (c :: l1 ++ a :: a :: l2)).
      apply cls_eqb_neq in Hh. rewrite Hh. now rewrite IH.
Qed.

(** ** Expansion *)

Lemma expand_requests_ok l : Forall recognised l -> expand_requests l = Ok (flat_map meaning l).
Proof.
  induction 1 as [|r l Hr Hl IH]; [reflexivity|].
  destruct r as [c| |s]; cbn [expand_requests flat_map meaning].
  - now rewrite IH.
  - now rewrite IH.
  - cbn [recognised] in Hr. destruct (named_transform s) as [cs|]; [|congruence].
    now rewrite IH.
Qed.

Lemma expand_requests_bad l : ~ Forall recognised l -> expand_requests l = Err ENameError.
Proof.
  induction l as [|r l IH]; intros H.
  - exfalso. apply H. constructor.
  - destruct r as [c| |s]; cbn [expand_requests].
    + rewrite IH; [reflexivity|]. intros Hl. apply H. constructor; [exact I|exact Hl].
    + apply IH. intros Hl. apply H. constructor; [exact I|exact Hl].
    + destruct (named_transform s) as [cs|] eqn:E; [|reflexivity].
      rewrite IH; [reflexivity|]. intros Hl. apply H. constructor; [cbn; congruence|exact Hl].
Qed.

(** ** The loop *)

Lemma nth_error_past {A} (l1 l2 : list A) : nth_error (l1 ++ l2) (List.length l1) = hd_error l2.
Proof. rewrite nth_error_app2, Nat.sub_diag; [destruct l2; reflexivity|lia]. Qed.

Lemma pop_at_app l1 c l2 : pop_at (List.length l1) (l1 ++ c :: l2) = l1 ++ l2.
Proof. induction l1 as [|b l1 IH]; cbn; [reflexivity|]. now rewrite IH. Qed.

Definition last_opt (l : list cls) : option cls := hd_error (rev l).

Lemma last_opt_snoc l a : last_opt (l ++ [a]) = Some a.
Proof. unfold last_opt. now rewrite rev_app_distr. Qed.

(** In step: the loop walks over a part without equal neighbours. *)
Lemma dedup_walk l2 : forall fuel l1,
  List.length l2 <= fuel ->
  no_repeat (match last_opt l1 with Some p => [p] | None => [] end ++ l2) ->
  forall l3,
  dedup_loop fuel (List.length l1) (List.length l1) (last_opt l1) (l1 ++ l2 ++ l3) =
  dedup_loop (fuel - List.length l2) (List.length (l1 ++ l2)) (List.length (l1 ++ l2))
             (last_opt (l1 ++ l2)) (l1 ++ l2 ++ l3).
Proof.
  induction l2 as [|c l2 IH]; intros fuel l1 Hf Hn l3.
  - cbn [List.length app]. rewrite Nat.sub_0_r, app_nil_r. reflexivity.
  - destruct fuel as [|fuel]; [cbn in Hf; lia|]. cbn [dedup_loop].
    rewrite nth_error_past. cbn [app hd_error].
    assert (Hne : match last_opt l1 with Some p => cls_eqb c p | None => false end = false).
    { destruct (last_opt l1) as [p|]; [|reflexivity]. cbn in Hn. destruct Hn as [Hn _].
      apply cls_eqb_neq. congruence. }
    rewrite Hne.
    specialize (IH fuel (l1 ++ [c])). rewrite app_length, Nat.add_comm in IH. cbn [List.length Nat.add] in IH.
    rewrite last_opt_snoc, <- !app_assoc in IH. cbn [app] in IH.
    replace (S fuel - List.length (c :: l2)) with (fuel - List.length l2) by (cbn; lia).
    replace (l1 ++ c :: l2 ++ l3) with ((l1 ++ [c]) ++ l2 ++ l3) by (now rewrite <- app_assoc).
    apply IH.
    + cbn in Hf. lia.
    + destruct (last_opt l1) as [p|]; cbn [app] in Hn.
      * destruct Hn as [_ Hn]. exact Hn.
      * exact Hn.
Qed.

Lemma dedup_loop_end fuel i idx prev l : List.length l <= i -> dedup_loop fuel i idx prev l = l.
Proof.
  intros H. destruct fuel as [|fuel]; [reflexivity|]. cbn.
  apply nth_error_None in H. now rewrite H.
Qed.

Lemma dedup_no_repeat l : no_repeat l -> dedup l = l.
Proof.
  intros H. unfold dedup.
  pose proof (dedup_walk l (List.length l) [] (le_n _) H []) as W.
  cbn [app List.length] in W. rewrite !app_nil_r in W. change (last_opt []) with (@None cls) in W.
  rewrite W. apply dedup_loop_end. lia.
Qed.

(** One step late: after one pop the loop compares the element at position
    [length l1 + 1] with [prev], and its pop index is [length l1]. *)
Lemma dedup_late_walk l2 : forall fuel l1 b prev,
  match l2 with c :: _ => c <> prev | [] => True end ->
  no_repeat l2 ->
  dedup_loop fuel (S (List.length l1)) (List.length l1) (Some prev) (l1 ++ b :: l2) = l1 ++ b :: l2.
Proof.
  induction l2 as [|c l2 IH]; intros fuel l1 b prev Hc Hn.
  - apply dedup_loop_end. rewrite app_length. cbn. lia.
  - destruct fuel as [|fuel]; [reflexivity|]. cbn [dedup_loop].
    replace (l1 ++ b :: c :: l2) with ((l1 ++ [b]) ++ c :: l2) by (now rewrite <- app_assoc).
    replace (S (List.length l1)) with (List.length (l1 ++ [b])) by (rewrite app_length; cbn; lia).
    rewrite nth_error_past. cbn [hd_error].
    apply cls_eqb_neq in Hc. rewrite Hc.
    rewrite IH; [reflexivity| |apply Hn].
    destruct l2 as [|d l2]; [exact I|]. destruct Hn as [Hn _]. congruence.
Qed.

Lemma no_repeat_app_l l1 l2 : no_repeat (l1 ++ l2) -> no_repeat l1.
Proof.
  induction l1 as [|a l1 IH]; [easy|]. intros [Hh Ht]. split; [|now apply IH].
  now destruct l1.
Qed.
Lemma no_repeat_app_r l1 l2 : no_repeat (l1 ++ l2) -> no_repeat l2.
Proof. induction l1 as [|a l1 IH]; [easy|]. intros [_ Ht]. now apply IH. Qed.

Lemma dedup_one_repeat l1 a l2 :
  no_repeat (l1 ++ a :: l2) -> nth_error l2 1 <> Some a ->
  dedup (l1 ++ a :: a :: l2) = l1 ++ a :: l2.
Proof.
  intros Hn Ha. unfold dedup.
  pose proof (dedup_walk (l1 ++ [a]) (List.length (l1 ++ a :: a :: l2)) []) as W.
  cbn [app List.length] in W. change (last_opt []) with (@None cls) in W.
  assert (Hn1 : no_repeat (l1 ++ [a])).
  { replace (l1 ++ a :: l2) with ((l1 ++ [a]) ++ l2) in Hn by (now rewrite <- app_assoc).
    now apply no_repeat_app_l in Hn. }
  specialize (W ltac:(rewrite !app_length; cbn; lia) Hn1 (a :: l2)).
  rewrite <- app_assoc in W. cbn [app] in W. rewrite W. clear W.
  replace (List.length (l1 ++ a :: a :: l2) - List.length (l1 ++ [a])) with (S (List.length l2))
    by (rewrite !app_length; cbn; lia).
  cbn [dedup_loop].
  replace (l1 ++ a :: a :: l2) with ((l1 ++ [a]) ++ a :: l2) by (now rewrite <- app_assoc).
  rewrite nth_error_past, last_opt_snoc. cbn [hd_error]. rewrite cls_eqb_refl, pop_at_app.
  destruct l2 as [|b l2].
  - rewrite app_nil_r. apply dedup_loop_end. lia.
  - rewrite dedup_late_walk; [now rewrite <- app_assoc| |].
    + destruct l2 as [|c l2]; [exact I|]. cbn in Ha. congruence.
    + apply no_repeat_app_r in Hn. apply Hn.
Qed.

(** Whatever the list: only deletions, and the first element stays. *)
Lemma subseq_refl l : subseq l l.
Proof. induction l; now constructor. Qed.
Lemma subseq_trans a b c : subseq a b -> subseq b c -> subseq a c.
Proof.
  intros H1 H2. revert a H1. induction H2 as [|x b c H2 IH|x b c H2 IH]; intros a H1.
  - exact H1.
  - inversion H1; subst; [constructor; now apply IH|constructor; now apply IH].
  - constructor. now apply IH.
Qed.
Lemma pop_at_subseq i l : subseq (pop_at i l) l.
Proof.
  revert i. induction l as [|c l IH]; intros [|i]; cbn; try constructor.
  - apply subseq_refl.
  - apply IH.
Qed.
Lemma dedup_loop_subseq fuel : forall i idx prev l, subseq (dedup_loop fuel i idx prev l) l.
Proof.
  induction fuel as [|fuel IH]; intros i idx prev l; cbn; [apply subseq_refl|].
  destruct (nth_error l i) as [c|]; [|apply subseq_refl].
  destruct (match prev with Some p => cls_eqb c p | None => false end).
  - eapply subseq_trans; [apply IH|apply pop_at_subseq].
  - apply IH.
Qed.
Lemma dedup_subseq l : subseq (dedup l) l.
Proof. apply dedup_loop_subseq. Qed.

Lemma pop_at_S_head i l : hd_error (pop_at (S i) l) = hd_error l.
Proof. now destruct l. Qed.
Lemma dedup_loop_head fuel : forall i idx prev l, hd_error (dedup_loop fuel i (S idx) prev l) = hd_error l.
Proof.
  induction fuel as [|fuel IH]; intros i idx prev l; cbn [dedup_loop]; [reflexivity|].
  destruct (nth_error l i) as [c|]; [|reflexivity].
  destruct (match prev with Some p => cls_eqb c p | None => false end).
  - rewrite IH. apply pop_at_S_head.
  - apply IH.
Qed.
Lemma dedup_head l : hd_error (dedup l) = hd_error l.
Proof.
  unfold dedup. destruct l as [|c l]; [reflexivity|]. cbn [List.length dedup_loop nth_error].
  now rewrite dedup_loop_head.
Qed.

(** ** The caller's list *)

Lemma simplify_no_requirement k l : kc_required k = None -> snd (simplify k l) = l.
Proof. unfold simplify. now intros ->. Qed.

Lemma kernel_init_unchanged k l : kc_required k = None -> snd (kernel_init k false false l) = l.
Proof. apply simplify_no_requirement. Qed.

Lemma get_transform_unchanged k d l : kc_required k = None -> snd (get_transform k d l) = l.
Proof.
  intros H. destruct l as [l|]; [|reflexivity]. unfold get_transform.
  pose proof (simplify_no_requirement k l H) as E. destruct (simplify k l) as [r l'].
  cbn [snd] in *. now subst.
Qed.

Lemma repeat_calls_same k n l :
  kc_required k = None ->
  repeat_calls k n l = (repeat (fst (simplify k l)) n, l).
Proof.
  intros H. induction n as [|n IH]; [reflexivity|]. cbn [repeat_calls].
  pose proof (simplify_no_requirement k l H) as E.
  destruct (simplify k l) as [r l'] eqn:Es. cbn in E. subst l'.
  rewrite IH. reflexivity.
Qed.

(** With a requirement the list grows by one element at each call. *)
Lemma repeat_calls_grows k r n l :
  kc_required k = Some r -> snd (repeat_calls k n l) = l ++ repeat r n.
Proof.
  intros H. revert l. induction n as [|n IH]; intros l; cbn [repeat_calls repeat].
  - now rewrite app_nil_r.
  - unfold simplify. rewrite H.
    specialize (IH (l ++ [r])). destruct (repeat_calls k n (l ++ [r])) as [rs l''].
    cbn [snd] in *. rewrite IH, <- app_assoc. reflexivity.
Qed.

(** ** The loop in one pass *)
Lemma dedup_loop_late : forall l2 fuel k prev l1, List.length l2 <= fuel ->
  dedup_loop fuel (List.length l1 + k) (List.length l1) prev (l1 ++ l2) = l1 ++ kept_late k prev l2.
Proof.
  intros l2. induction l2 as [|a l2 IH]; intros fuel k prev l1 Hf.
  - rewrite dedup_loop_end; [reflexivity|]. rewrite app_length. cbn. lia.
  - destruct fuel as [|fuel]; [cbn in Hf; lia|]. cbn [List.length] in Hf.
    cbn [dedup_loop kept_late].
    rewrite nth_error_app2 by lia. replace (List.length l1 + k - List.length l1) with k by lia.
    destruct (nth_error (a :: l2) k) as [b|] eqn:Eb; [|reflexivity].
    destruct (match prev with Some p => cls_eqb b p | None => false end) eqn:E.
    + rewrite pop_at_app. replace (S (List.length l1 + k)) with (List.length l1 + S k) by lia.
      apply IH. lia.
    + specialize (IH fuel k (Some b) (l1 ++ [a])). rewrite app_length in IH. cbn [List.length] in IH.
      replace (S (List.length l1 + k)) with (List.length l1 + 1 + k) by lia.
      replace (S (List.length l1)) with (List.length l1 + 1) by lia.
      rewrite <- !app_assoc in IH. cbn [app] in IH. apply IH. lia.
Qed.

Lemma dedup_late l : dedup l = kept_late 0 None l.
Proof. exact (dedup_loop_late l (List.length l) 0 None [] (le_n _)). Qed.

Lemma beautify_late l : Forall recognised l -> beautify l = Ok (kept_late 0 None (flat_map meaning l)).
Proof. intros H. unfold beautify. rewrite expand_requests_ok by exact H. cbn. now rewrite dedup_late. Qed.
