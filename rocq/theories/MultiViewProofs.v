(** Multi-view models: proofs. *)
From Coq Require Import Permutation.
From Verif Require Import Base BaseProofs MultiView RVec RVecProofs MultiViewR.
Open Scope nat_scope.

(** Views attached one after the other under their names. *)
Definition attach_all (l : list (string * nat)) : @mview :=
  fold_left (fun s p => attach_view (fun _ => EmptyString) s (Some (fst p)) (snd p)) l mview0.
Definition dims (l : list (string * nat)) : list nat := map snd l.

(** What [attach_all] builds for distinct names. *)
Fixpoint numbered (i : nat) (l : list (string * nat)) : dict (nat * nat) :=
  match l with [] => [] | (k, d) :: l' => (k, (d, i)) :: numbered (S i) l' end.
Lemma numbered_app i l m : numbered i (l ++ m) = numbered i l ++ numbered (i + List.length l) m.
Proof.
  revert i. induction l as [|[k d] l IH]; intros i; cbn [app numbered List.length].
  - rewrite Nat.add_0_r. reflexivity.
  - rewrite IH. rewrite <- Nat.add_succ_comm. reflexivity.
Qed.
Lemma numbered_keys i l : map fst (numbered i l) = map fst l.
Proof. revert i. induction l as [|[k d] l IH]; intros i; cbn; [reflexivity|]. rewrite IH. reflexivity. Qed.
Lemma numbered_dims i l : map (fun kv => fst (snd kv)) (numbered i l) = dims l.
Proof. revert i. induction l as [|[k d] l IH]; intros i; cbn; [reflexivity|]. rewrite IH. reflexivity. Qed.
Lemma dset_fresh {V} (d : dict V) k v : ~ In k (map fst d) -> dset d k v = d ++ [(k, v)].
Proof.
  induction d as [|[k' v'] d IH]; cbn; intros H; [reflexivity|].
  destruct (String.eqb_spec k' k) as [E|E]; [exfalso; apply H; left; exact E|].
  rewrite IH; [reflexivity|]. intros Hin. apply H. right. exact Hin.
Qed.
Lemma attach_all_app l m : attach_all (l ++ m) = fold_left (fun s p => attach_view (fun _ => EmptyString) s (Some (fst p)) (snd p)) m (attach_all l).
Proof. unfold attach_all. apply fold_left_app. Qed.
Lemma attach_all_distinct l : NoDup (map fst l) -> attach_all l = MView (numbered 0 l) (List.length l).
Proof.
  induction l as [|p l IH] using rev_ind; intros H; [reflexivity|].
  rewrite map_app in H. cbn [map] in H. apply NoDup_remove in H. rewrite app_nil_r in H. destruct H as [H1 H2].
  rewrite attach_all_app, (IH H1). cbn [fold_left]. unfold attach_view. cbn [m_views m_count].
  rewrite dset_fresh by (rewrite numbered_keys; exact H2).
  rewrite numbered_app, app_length. destruct p as [k d]. cbn. rewrite Nat.add_1_r. reflexivity.
Qed.

Lemma numbered_get i l j k d : NoDup (map fst l) -> nth_error l j = Some (k, d) -> dget (numbered i l) k = Some (d, i + j).
Proof.
  revert i j. induction l as [|[k' d'] l IH]; intros i j Hn Hj; [destruct j; discriminate Hj|].
  cbn [map] in Hn. inversion Hn as [|a b Hnin Hn' E]. subst a b. cbn [numbered dget fst] in *.
  destruct j as [|j].
  - cbn in Hj. injection Hj as -> ->. rewrite String.eqb_refl, Nat.add_0_r. reflexivity.
  - cbn in Hj. destruct (String.eqb_spec k' k) as [E|E].
    + exfalso. apply Hnin. rewrite E. apply nth_error_In in Hj. apply (in_map fst) in Hj. exact Hj.
    + rewrite (IH (S i) j Hn' Hj). f_equal. f_equal. lia.
Qed.

(** Cumulative sums. *)
Lemma cumsum_nth a l i : i < List.length l -> nth_error (cumsum a l) i = Some (a + list_sum (firstn (S i) l)).
Proof.
  revert a i. induction l as [|x l IH]; intros a i Hi; [cbn in Hi; lia|].
  destruct i as [|i]; cbn [cumsum nth_error].
  - cbn. rewrite Nat.add_0_r. reflexivity.
  - rewrite IH by (cbn in Hi; lia). cbn [firstn list_sum fold_right]. f_equal. cbn. lia.
Qed.
Lemma cumsum_length a l : List.length (cumsum a l) = List.length l.
Proof. revert a. induction l as [|x l IH]; intros a; cbn; [reflexivity|]. rewrite IH. reflexivity. Qed.
Lemma sum_firstn_S l i : i < List.length l -> list_sum (firstn (S i) l) = list_sum (firstn i l) + nth i l 0.
Proof.
  revert i. induction l as [|x l IH]; intros i Hi; [cbn in Hi; lia|]. destruct i as [|i].
  - cbn. lia.
  - cbn [nth]. change (firstn (S (S i)) (x :: l)) with (x :: firstn (S i) l). change (firstn (S i) (x :: l)) with (x :: firstn i l).
    cbn [list_sum fold_right]. change (fold_right Nat.add 0) with list_sum. rewrite IH by (cbn in Hi; lia). lia.
Qed.

(** The consecutive parts of a list. *)
Fixpoint parts {A} (ds : list nat) (w : list A) : list (list A) :=
  match ds with [] => [] | d :: ds' => firstn d w :: parts ds' (skipn d w) end.
Lemma parts_length {A} ds (w : list A) : List.length (parts ds w) = List.length ds.
Proof. revert w. induction ds as [|d ds IH]; intros w; cbn; [reflexivity|]. rewrite IH. reflexivity. Qed.
Lemma parts_concat {A} ds (w : list A) : List.length w = list_sum ds -> concat (parts ds w) = w.
Proof.
  revert w. induction ds as [|d ds IH]; intros w Hw; cbn [parts concat].
  - destruct w; [reflexivity|discriminate Hw].
  - rewrite IH; [apply firstn_skipn|]. rewrite skipn_length, Hw. cbn. change (fold_right Nat.add 0 ds) with (list_sum ds). lia.
Qed.
Lemma skipn_add {A} a b (l : list A) : skipn a (skipn b l) = skipn (b + a) l.
Proof. revert l. induction b as [|b IH]; intros l; [reflexivity|]. destruct l as [|x l]; [rewrite !skipn_nil; reflexivity|apply IH]. Qed.
Lemma parts_nth {A} ds (w : list A) i : i < List.length ds -> nth i (parts ds w) [] = firstn (nth i ds 0) (skipn (list_sum (firstn i ds)) w).
Proof.
  revert w i. induction ds as [|d ds IH]; intros w i Hi; [cbn in Hi; lia|]. destruct i as [|i]; [reflexivity|].
  cbn [parts nth firstn]. rewrite IH by (cbn in Hi; lia). rewrite skipn_add. reflexivity.
Qed.
Lemma sum_firstn_le l i : list_sum (firstn i l) <= list_sum l.
Proof.
  revert i. induction l as [|x l IH]; intros [|i]; cbn; try lia. specialize (IH i).
  change (fold_right Nat.add 0 (firstn i l)) with (list_sum (firstn i l)). change (fold_right Nat.add 0 l) with (list_sum l). lia.
Qed.
Lemma parts_nth_length {A} ds (w : list A) i : List.length w = list_sum ds -> i < List.length ds -> List.length (nth i (parts ds w) []) = nth i ds 0.
Proof.
  intros Hw Hi. rewrite parts_nth by exact Hi. rewrite firstn_length, skipn_length, Hw.
  pose proof (sum_firstn_le ds (S i)) as H. rewrite sum_firstn_S in H by exact Hi. lia.
Qed.

Section Slices.
  Context {F : Type}.
  Lemma slices (l : list (string * nat)) (w : list F) : NoDup (map fst l) -> List.length w = list_sum (dims l) ->
    exists ps, List.length ps = List.length l /\ concat ps = w /\
      forall i k d, nth_error l i = Some (k, d) -> view_weight (attach_all l) w k = Ok (nth i ps []) /\ List.length (nth i ps []) = d.
  Proof.
    intros Hn Hw. exists (parts (dims l) w). split; [rewrite parts_length; apply map_length|]. split; [apply parts_concat; exact Hw|].
    intros i k d Hi. assert (Hl : i < List.length (dims l)).
    { unfold dims. rewrite map_length. apply nth_error_Some. rewrite Hi. discriminate. }
    assert (Hd : nth i (dims l) 0 = d).
    { unfold dims. apply nth_error_nth. rewrite (map_nth_error snd i l Hi). reflexivity. }
    split; [|rewrite parts_nth_length by assumption; exact Hd].
    rewrite (attach_all_distinct l Hn). unfold view_weight. cbn [m_views]. rewrite (numbered_get 0 l i k d Hn Hi). cbn [Nat.add].
    unfold weight_from_view, dims_feature_cumulative, dims_feature. cbn [m_views]. rewrite numbered_dims. rewrite parts_nth by exact Hl.
    destruct i as [|i].
    - rewrite cumsum_nth by exact Hl. rewrite sum_firstn_S by exact Hl. reflexivity.
    - rewrite !cumsum_nth by lia. f_equal. unfold slice. cbn [Nat.add]. f_equal. rewrite (sum_firstn_S _ (S i)) by exact Hl. lia.
  Qed.

  (** A name given twice. *)
  Lemma dset_present {V} (d : dict V) k v : In k (map fst d) -> map fst (dset d k v) = map fst d.
  Proof.
    induction d as [|[k' v'] d IH]; cbn; intros H; [contradiction|].
    destruct (String.eqb_spec k' k) as [E|E]; cbn; [rewrite E; reflexivity|].
    rewrite IH; [reflexivity|]. destruct H as [H|H]; [contradiction|exact H].
  Qed.
  Lemma duplicate (l : list (string * nat)) k d (w : list F) : NoDup (map fst l) -> In k (map fst l) ->
    view_weight (attach_all (l ++ [(k, d)])) w k = Err EIndexError.
  Proof.
    intros Hn Hk. rewrite attach_all_app, (attach_all_distinct l Hn). cbn [fold_left fst snd]. unfold attach_view. cbn [m_views m_count].
    unfold view_weight. cbn [m_views]. rewrite dset_get_same. unfold weight_from_view, dims_feature_cumulative, dims_feature. cbn [m_views].
    assert (L : List.length (cumsum 0 (map (fun kv : string * (nat * nat) => fst (snd kv)) (dset (numbered 0 l) k (d, List.length l)))) = List.length l).
    { rewrite cumsum_length, map_length, <- (map_length fst), dset_present by (rewrite numbered_keys; exact Hk). rewrite numbered_keys. apply map_length. }
    destruct (List.length l) as [|n] eqn:EL; [destruct l; [destruct Hk|discriminate EL]|].
    rewrite (proj2 (nth_error_None _ (S n))) by (rewrite L; lia).
    destruct (nth_error _ n); reflexivity.
  Qed.

  (** Handing out predicted features. *)
  Lemma single_prediction (s : @mview) k d (row : list F) : view_dim s k = Ok d -> List.length row = d -> predict_parts s row [k] = Ok [(k, row)].
  Proof.
    intros Hd Hl. unfold predict_parts. cbn [hand_out bind]. rewrite Hd. cbn [bind]. unfold slice. cbn [skipn].
    rewrite Nat.sub_0_r, <- Hl, firstn_all. reflexivity.
  Qed.
  Lemma second_prediction (s : @mview) k1 k2 names d1 d2 (p1 p2 rest : list F) ps :
    view_dim s k1 = Ok d1 -> view_dim s k2 = Ok d2 -> List.length p1 = d1 -> List.length p2 = d2 -> 0 < d1 -> 0 < d2 ->
    predict_parts s (p1 ++ p2 ++ rest) (k1 :: k2 :: names) = Ok ps ->
    nth_error ps 0 = Some (k1, p1) /\ exists q, nth_error ps 1 = Some (k2, q) /\ List.length q < d2.
  Proof.
    intros H1 H2 L1 L2 P1 P2. unfold predict_parts. cbn [hand_out]. rewrite H1, H2. cbn [bind].
    destruct (hand_out s (p1 ++ p2 ++ rest) d2 names) as [r|e]; cbn [bind]; [|intros H; discriminate H].
    intros H. injection H as <-. cbn [nth_error]. split.
    - f_equal. f_equal. unfold slice. cbn [skipn]. rewrite Nat.sub_0_r, <- L1. rewrite firstn_app, firstn_all, Nat.sub_diag. cbn. apply app_nil_r.
    - eexists. split; [reflexivity|]. unfold slice. rewrite firstn_length. lia.
  Qed.
  Lemma predicted (s : @mview) names (row : list F) : Forall (fun k => dmem (m_views s) k = true) names -> is_ok (predict_parts s row names) = true.
  Proof.
    unfold predict_parts. generalize 0. intros a H. revert a. induction H as [|k names Hk _ IH]; intros a; [reflexivity|].
    cbn [hand_out]. unfold view_dim. unfold dmem in Hk. destruct (dget (m_views s) k) as [[d i]|]; [|discriminate Hk]. cbn [bind].
    specialize (IH d). destruct (hand_out s row d names); [reflexivity|discriminate IH].
  Qed.
End Slices.

(** Numbers as keys. *)
Definition named (p : vkey * option nat) : bool := match fst p with KName _ => true | KNum _ => false end.
Lemma known_points_numbers known names acc : Forall (fun p => exists n, fst p = KNum n) known -> known_points known names acc = Ok acc.
Proof.
  intros H. assert (E : forall k : string, find (fun p : vkey * option nat => match fst p with KName k' => String.eqb k k' | KNum _ => false end) known = None).
  { intros k. induction H as [|[a b] l [n Hp] _ IH]; [reflexivity|]. cbn in Hp. cbn [find fst]. rewrite Hp. exact IH. }
  revert acc. induction names as [|k names IH]; intros acc; cbn [known_points]; [reflexivity|]. rewrite E. apply IH.
Qed.
Lemma numbers_rejected s known : Forall (fun p => exists n, fst p = KNum n) known -> project_names s known = Err EAssertionError.
Proof. intros H. unfold project_names. rewrite known_points_numbers by exact H. reflexivity. Qed.
Lemma find_names k known :
  find (fun p : vkey * option nat => match fst p with KName k' => String.eqb k k' | KNum _ => false end) known =
  find (fun p : vkey * option nat => match fst p with KName k' => String.eqb k k' | KNum _ => false end) (filter named known).
Proof.
  induction known as [|[[n|n] b] l IH]; [reflexivity| |]; cbn [find fst filter named].
  - destruct (String.eqb k n); [reflexivity|exact IH].
  - exact IH.
Qed.
Lemma numbers_ignored s known : project_names s known = project_names s (filter named known).
Proof.
  assert (E : forall names acc, known_points known names acc = known_points (filter named known) names acc).
  { induction names as [|k names IH]; intros acc; cbn [known_points]; [reflexivity|]. rewrite <- find_names.
    destruct (find _ known) as [[a [m|]]|]; [|apply IH|apply IH].
    destruct acc as [m'|]; [destruct (Nat.eqb m' m); [apply IH|reflexivity]|apply IH]. }
  unfold project_names. rewrite E. destruct (known_points _ _ _) as [[x|]|e]; [|reflexivity|reflexivity].
  f_equal. unfold to_predict. apply filter_ext. intros k. f_equal.
  unfold known_name. clear. induction known as [|[[n|n] b] l IH]; [reflexivity| |]; cbn [existsb fst filter named].
  - rewrite IH. reflexivity.
  - exact IH.
Qed.
Lemma names_accepted s k m : dmem (m_views s) k = true -> project_names s [(KName k, Some m)] = Ok (filter (fun k' => negb (String.eqb k' k)) (dkeys (m_views s))).
Proof.
  intros Hk. unfold project_names.
  assert (E : forall names acc, (In k names \/ acc = Some m) -> (acc = None \/ acc = Some m) -> known_points [(KName k, Some m)] names acc = Ok (Some m)).
  { induction names as [|k' names IH]; intros acc Hin Ha; cbn [known_points].
    - destruct Hin as [H|H]; [destruct H|rewrite H; reflexivity].
    - cbn [find fst]. destruct (String.eqb_spec k' k) as [->|Hne].
      + destruct Ha as [-> | ->]; [|rewrite Nat.eqb_refl]; apply IH; right; reflexivity.
      + apply IH; [|exact Ha]. destruct Hin as [[H|H]|H]; [contradiction|left; exact H|right; exact H]. }
  rewrite E; [|left|left; reflexivity].
  - unfold to_predict, known_name. f_equal. apply filter_ext. intros k'. cbn. rewrite Bool.orb_false_r. reflexivity.
  - unfold dmem in Hk. unfold dkeys. clear E. induction (m_views s) as [|[a b] l IH]; cbn in *; [discriminate Hk|].
    destruct (String.eqb_spec a k) as [->|Hne]; [left; reflexivity|right; apply IH; exact Hk].
Qed.

(** Features and kernel. *)
Section Kernel.
  Context {X : Type}.
  Open Scope R_scope.
  Lemma dot_app a b c d : List.length a = List.length c -> dot (a ++ b) (c ++ d) = dot a c + dot b d.
  Proof.
    revert c. induction a as [|x a IH]; intros [|y c] H; try discriminate H.
    - cbn [app]. rewrite dot_nil_l. lra.
    - cbn [app]. rewrite !dot_cons, IH by (injection H as H; exact H). lra.
  Qed.
  Lemma view_dot (v : rview X) x y : 0 <= r_kappa v -> dot (view_phi v x) (view_phi v y) = view_k v x y.
  Proof.
    intros H. unfold view_phi, view_k. rewrite dot_scal_l, dot_scal_r, <- Rmult_assoc, sqrt_sqrt by exact H. reflexivity.
  Qed.
  Lemma multi_kernel (known : list (rview X * X)) (sample : rview X -> X) :
    Forall (fun p => 0 <= r_kappa (fst p) /\ List.length (r_phi (fst p) (snd p)) = List.length (r_phi (fst p) (sample (fst p)))) known ->
    dot (multi_phi known) (multi_phi (map (fun p => (fst p, sample (fst p))) known)) = multi_k known sample.
  Proof.
    intros H. induction H as [|p l [Hk Hl] _ IH]; [reflexivity|].
    unfold multi_phi, multi_k in *. cbn [map concat fst snd]. rewrite dot_app.
    - rewrite sum_cons, IH, view_dot by exact Hk. reflexivity.
    - unfold view_phi. rewrite !map_length. exact Hl.
  Qed.
  Definition fits (p : rview X * X) : Prop := List.length (r_weight (fst p)) = List.length (r_phi (fst p) (snd p)).
  Lemma score_sum known : Forall fits known -> score known = sum (map (fun p => dot (view_phi (fst p) (snd p)) (r_weight (fst p))) known).
  Proof.
    intros H. induction H as [|p l Hp _ IH]; [reflexivity|]. unfold score, multi_phi, weights_by_name in *. cbn [map concat].
    rewrite dot_app by (unfold view_phi; rewrite map_length; symmetry; exact Hp). rewrite sum_cons, IH. reflexivity.
  Qed.
  Lemma sum_perm l m : Permutation l m -> sum l = sum m.
  Proof. intros H. induction H as [|x l m _ IH|x y l|l m n _ IH1 _ IH2]; rewrite ?sum_cons; [reflexivity|rewrite IH; reflexivity|lra|congruence]. Qed.
  Lemma score_perm known known' : Forall fits known -> Permutation known known' -> score known = score known'.
  Proof.
    intros H P. rewrite (score_sum known H), (score_sum known').
    - apply sum_perm, Permutation_map, P.
    - apply Forall_forall. intros x Hx. apply (proj1 (Forall_forall _ _) H). apply (Permutation_in x (Permutation_sym P)), Hx.
  Qed.
  Lemma kernel_perm (known known' : list (rview X * X)) sample : Permutation known known' -> multi_k known sample = multi_k known' sample.
  Proof. intros P. apply sum_perm, Permutation_map, P. Qed.
End Kernel.
