(** The variables of a level: proofs. *)
From Verif Require Import Base Cache Sample ViewState ViewSpec.
Open Scope nat_scope.

Section View.
  Context {F : Type}.
  Notation tensor := (@tensor F).
  Variable orth : nat -> nat -> tensor.
  Hypothesis orth_ok : forall n q, matrix n q (orth n q).

  (** ** Selections *)
  Lemma select_length (rows : list (list F)) idx r : select rows idx = Ok r -> List.length r = List.length idx.
  Proof.
    revert r. induction idx as [|i idx IH]; intros r; cbn [select]; [intros H; injection H as <-; reflexivity|].
    destruct (position _ _) as [p|e]; [|discriminate]. cbn [bind]. destruct (select rows idx) as [r'|e]; [|discriminate].
    cbn [bind]. intros H. injection H as <-. cbn. f_equal. now apply IH.
  Qed.
  Lemma select_in (rows : list (list F)) idx r : select rows idx = Ok r -> Forall (fun x => In x rows) r.
  Proof.
    revert r. induction idx as [|i idx IH]; intros r; cbn [select]; [intros H; injection H as <-; constructor|].
    destruct (position _ _) as [p|e] eqn:E; [|discriminate]. cbn [bind]. destruct (select rows idx) as [r'|e]; [|discriminate].
    cbn [bind]. intros H. injection H as <-. constructor; [|now apply IH].
    apply nth_In. unfold position in E. destruct (_ && _)%bool eqn:A in E.
    - injection E as <-. apply andb_prop in A as [A B]. apply Z.leb_le in A. apply Z.ltb_lt in B. lia.
    - destruct (_ && _)%bool eqn:C in E; [|discriminate E]. injection E as <-.
      apply andb_prop in C as [C D]. apply Z.leb_le in C. apply Z.ltb_lt in D. lia.
  Qed.
  Lemma select_shift (pre rows : list (list F)) :
    select (pre ++ rows)%list (map Z.of_nat (seq (List.length pre) (List.length rows))) = Ok rows.
  Proof.
    revert pre. induction rows as [|x rows IH]; intros pre; [reflexivity|].
    cbn [List.length seq map select]. unfold position.
    assert (A : ((0 <=? Z.of_nat (List.length pre)) && (Z.of_nat (List.length pre) <? Z.of_nat (List.length (pre ++ x :: rows))))%Z%bool = true).
    { apply andb_true_intro. split; [apply Z.leb_le; lia|apply Z.ltb_lt]. rewrite app_length. cbn. lia. }
    rewrite A. cbn [bind]. specialize (IH (pre ++ [x])%list). rewrite <- app_assoc in IH. cbn [app] in IH.
    rewrite app_length in IH. cbn [List.length] in IH. rewrite Nat.add_1_r in IH. rewrite IH. cbn [bind].
    rewrite Nat2Z.id. rewrite app_nth2, Nat.sub_diag by lia. reflexivity.
  Qed.
  Lemma select_whole (rows : list (list F)) n : List.length rows = n -> select rows (whole n) = Ok rows.
  Proof. intros <-. exact (select_shift [] rows). Qed.
  Lemma whole_length n : List.length (whole n) = n.
  Proof. unfold whole. now rewrite map_length, seq_length. Qed.

  (** ** Copies *)
  Lemma expand_same q (r : list F) : List.length r = q -> expand q r = r.
  Proof. intros <-. destruct r as [|x [|y r]]; reflexivity. Qed.
  Lemma copy_same n q (d s : tensor) : rows d = n -> cols d = q -> matrix n q s -> copy_into d s = Ok s.
  Proof.
    intros Hn Hq (A & B & C). unfold copy_into, rows, cols in *. rewrite A, B, Hn, Hq, !Nat.eqb_refl. cbn.
    assert (E : map (expand q) (t_rows s) = t_rows s).
    { clear A. induction C as [|r l H C IH]; [reflexivity|]. cbn. now rewrite IH, expand_same. }
    rewrite E. destruct s as [c r]. cbn in *. now subst c.
  Qed.
  Lemma copy_shape (d s t : tensor) : copy_into d s = Ok t -> rows t = rows d /\ cols t = cols d.
  Proof.
    unfold copy_into. destruct (_ && _)%bool eqn:A; [|discriminate]. intros H. injection H as <-. split; [|reflexivity].
    unfold rows at 1. cbn. unfold rows. unfold rows in A. destruct (Nat.eqb_spec (List.length (t_rows s)) (List.length (t_rows d))) as [E|N].
    - now rewrite map_length.
    - cbn in A. apply andb_prop in A as [A _]. apply Nat.eqb_eq in A. destruct (t_rows s) as [|r l]; [discriminate A|].
      cbn [map]. now rewrite repeat_length.
  Qed.
  Lemma copy_fails (d s : tensor) : rows s = rows d -> cols s <> cols d -> cols s <> 1 -> copy_into d s = Err ERuntimeError.
  Proof.
    intros E N N1. unfold copy_into. rewrite E, Nat.eqb_refl. cbn.
    rewrite (proj2 (Nat.eqb_neq _ _) N), (proj2 (Nat.eqb_neq _ _) N1). reflexivity.
  Qed.
  Lemma copy_fails_rows (d s : tensor) : rows s <> rows d -> rows s <> 1 -> copy_into d s = Err ERuntimeError.
  Proof.
    intros N N1. unfold copy_into. rewrite (proj2 (Nat.eqb_neq _ _) N), (proj2 (Nat.eqb_neq _ _) N1). reflexivity.
  Qed.
  Lemma copy_one (d s : tensor) n : rows d = n -> matrix n 1 s ->
    copy_into d s = Ok (Tensor (cols d) (map (expand (cols d)) (t_rows s))).
  Proof.
    intros Hn (A & B & C). unfold copy_into, rows, cols in *. rewrite A, B, Hn, !Nat.eqb_refl. cbn. rewrite Bool.orb_true_r. reflexivity.
  Qed.

  (** ** Pruning *)
  Lemma keep_filter (small : F -> bool) v : keep small v v = kept small v.
  Proof. induction v as [|x v IH]; cbn; [reflexivity|]. destruct (small x); cbn; now rewrite IH. Qed.
  Lemma keep_length {A} (small : F -> bool) v (l : list A) : List.length l = List.length v ->
    List.length (keep small v l) = List.length (kept small v).
  Proof.
    revert l. induction v as [|x v IH]; intros [|a l] H; try discriminate H; [reflexivity|]. cbn in *.
    injection H as H. destruct (small x); cbn; auto.
  Qed.
  Lemma kept_length (small : F -> bool) v : List.length (kept small v) <= List.length v.
  Proof. unfold kept. induction v as [|x v IH]; cbn; [lia|]. destruct (small x); cbn; lia. Qed.
  Lemma keep_all {A} (small : F -> bool) v (l : list A) : List.length l = List.length v -> Forall (fun x => small x = false) v -> keep small v l = l.
  Proof.
    revert l. induction v as [|x v IH]; intros [|a l] H S; try discriminate H; [reflexivity|]. cbn in *.
    rewrite (Forall_inv S). f_equal. apply IH; [now injection H|exact (Forall_inv_tail S)].
  Qed.
  Lemma prune_matrix small v (e : tensor) n : matrix n (List.length v) e -> matrix n (List.length (kept small v)) (snd (prune small v e)).
  Proof.
    intros (A & B & C). unfold prune, matrix. cbn [snd t_rows t_cols]. rewrite map_length, keep_filter. split; [exact A|]. split; [reflexivity|].
    apply Forall_map. clear A. induction C as [|r l H C IH]; constructor; [|exact IH]. now apply keep_length.
  Qed.
  Lemma prune_none small v (e : tensor) n : matrix n (List.length v) e -> Forall (fun x => small x = false) v -> prune small v e = (v, e).
  Proof.
    intros (A & B & C) S. unfold prune. rewrite keep_all by auto. f_equal. destruct e as [c r]. cbn in *. rewrite <- B. f_equal.
    clear A. revert C. induction r as [|x r IH]; intros C; cbn; [reflexivity|]. rewrite IH by exact (Forall_inv_tail C). f_equal.
    apply keep_all; [exact (Forall_inv C)|exact S].
  Qed.

  Lemma exists_pos (p : param F) : exists_ p = true <-> rows (p_val p) * cols (p_val p) <> 0.
  Proof. unfold exists_. rewrite Bool.negb_true_iff. apply Nat.eqb_neq. Qed.
  Lemma exists_not (p : param F) : exists_ p = false <-> rows (p_val p) * cols (p_val p) = 0.
  Proof. unfold exists_. rewrite Bool.negb_false_iff. apply Nat.eqb_eq. Qed.

  (** ** Updating the dual variables *)
  (** The parameter that the update writes into. *)
  Lemma update_target (s : view F) n q : v_total s = Some n -> v_out s = Some q -> n * q <> 0 ->
    (exists_ (v_dual s) = true -> rows (p_val (v_dual s)) = n /\ cols (p_val (v_dual s)) = q) ->
    exists s1, (if exists_ (v_dual s) then (Ok tt, s) else init_dual orth s) = (Ok tt, s1) /\
      exists_ (v_dual s1) = true /\ rows (p_val (v_dual s1)) = n /\ cols (p_val (v_dual s1)) = q /\
      v_idx s1 = v_idx s /\ v_out s1 = Some q /\ v_total s1 = Some n /\ v_primal s1 = v_primal s /\ v_attached s1 = v_attached s.
  Proof.
    intros T O P H. destruct (exists_ (v_dual s)) eqn:E.
    - exists s. destruct (H eq_refl) as (A & B). repeat split; auto.
    - unfold init_dual. rewrite T, O. unfold set_dual. rewrite E. cbn. destruct (orth_ok n q) as (A & B & C).
      eexists. split; [reflexivity|]. cbn. split; [apply exists_pos; cbn; unfold rows, cols; rewrite A, B; exact P|].
      unfold rows, cols. repeat split; auto.
  Qed.
  Lemma update_whole (s : view F) n q (e : tensor) : v_total s = Some n -> v_out s = Some q -> v_idx s = whole n -> n * q <> 0 ->
    (exists_ (v_dual s) = true -> rows (p_val (v_dual s)) = n /\ cols (p_val (v_dual s)) = q) -> matrix n q e ->
    fst (update_dual orth s e) = Ok tt /\ get_dual (snd (update_dual orth s e)) = Ok e /\
    v_out (snd (update_dual orth s e)) = Some q /\ p_val (v_dual (snd (update_dual orth s e))) = e.
  Proof.
    intros T O I P H M. destruct (update_target s n q T O P H) as (s1 & E & X & R & C & I1 & O1 & _). unfold update_dual. rewrite E.
    pose proof M as (A & B & W). rewrite I1, I, (select_whole _ n A). cbn [bind].
    assert (Ee : Tensor (cols e) (t_rows e) = e) by (now destruct e). rewrite Ee, (copy_same n q _ e R C M). cbn [fst snd].
    split; [reflexivity|]. unfold reset_primal, get_dual, exists_. cbn. unfold rows, cols. rewrite A, B.
    rewrite (proj2 (Nat.eqb_neq _ _) P). cbn. rewrite I1, I, (select_whole _ n A). cbn. repeat split; auto.
    destruct e as [c r]. cbn in *. now subst c.
  Qed.
  (** What is reported after an update on as many points as there are. *)
  Lemma update_select (s : view F) n q (e : tensor) r r2 : v_total s = Some n -> v_out s = Some q -> List.length (v_idx s) = n -> n * q <> 0 ->
    (exists_ (v_dual s) = true -> rows (p_val (v_dual s)) = n /\ cols (p_val (v_dual s)) = q) -> matrix n q e ->
    select (t_rows e) (v_idx s) = Ok r -> select r (v_idx s) = Ok r2 ->
    fst (update_dual orth s e) = Ok tt /\ get_dual (snd (update_dual orth s e)) = Ok (Tensor q r2).
  Proof.
    intros T O I P H M S S2. destruct (update_target s n q T O P H) as (s1 & E & X & R & C & I1 & O1 & _). unfold update_dual. rewrite E.
    pose proof M as (A & B & W). rewrite I1, S. cbn [bind].
    assert (Mr : matrix n q (Tensor (cols e) r)).
    { unfold matrix, cols. cbn. split; [now rewrite (select_length _ _ _ S)|]. split; [exact B|].
      apply Forall_forall. intros x Hx. pose proof (proj1 (Forall_forall _ _) (select_in _ _ _ S) x Hx) as Hi. cbv beta in Hi.
      exact (proj1 (Forall_forall _ _) W x Hi). }
    rewrite (copy_same n q _ _ R C Mr). cbn [fst snd]. split; [reflexivity|].
    unfold reset_primal, get_dual, exists_. cbn. unfold rows, cols. cbn. rewrite (select_length _ _ _ S), I, B.
    rewrite (proj2 (Nat.eqb_neq _ _) P). cbn. rewrite I1, S2. reflexivity.
  Qed.
  (** Fewer points selected than there are, two at least: the update raises. *)
  Lemma update_subset (s : view F) n q (e : tensor) : v_total s = Some n -> v_out s = Some q -> List.length (v_idx s) <> n ->
    List.length (v_idx s) <> 1 -> n * q <> 0 ->
    (exists_ (v_dual s) = true -> rows (p_val (v_dual s)) = n /\ cols (p_val (v_dual s)) = q) ->
    exists x, fst (update_dual orth s e) = Err x.
  Proof.
    intros T O I I1 P H. destruct (update_target s n q T O P H) as (s1 & E & X & R & C & J & O1 & _). unfold update_dual. rewrite E, J.
    destruct (select (t_rows e) (v_idx s)) as [r|x] eqn:S; cbn [bind]; [|now exists x].
    rewrite copy_fails_rows; [now exists ERuntimeError| |]; unfold rows at 1; cbn; rewrite (select_length _ _ _ S); [now rewrite R|exact I1].
  Qed.

  (** ** Solving *)
  Variables (eig : nat -> list F * tensor) (small : F -> bool) (fact : F -> F).
  (** The state from which the solution is stored: the output dimension requested. *)
  Definition requested (n : nat) (s : view F) : nat := match v_out s with None => n | Some q => Nat.min q n end.
  Notation good_eig := (good_eig eig).

  Lemma solve_dual_unfold (s : kpca F) n : List.length (v_idx (k_view s)) = n -> good_eig n ->
    exists s1, v_out s1 = Some (requested n (k_view s)) /\ v_total s1 = v_total (k_view s) /\ v_idx s1 = v_idx (k_view s) /\
      v_primal s1 = v_primal (k_view s) /\ v_attached s1 = v_attached (k_view s) /\
      (exists_ (v_dual s1) = true -> v_dual s1 = v_dual (k_view s) /\
         (v_out (k_view s) = None \/ v_out (k_view s) = Some (requested n (k_view s)))) /\
      (v_dual s1 = v_dual (k_view s) \/ exists_ (v_dual s1) = false /\ (exists q, v_out (k_view s) = Some q /\ n < q)) /\
      let v := fst (eig (requested n (k_view s))) in let e := snd (eig (requested n (k_view s))) in
      solve_dual orth eig small fact s =
        match update_dual orth (with_out s1 (Some (List.length (kept small v)))) (snd (prune small v e)) with
        | (Err x, s3) => (Err x, Kpca s3 (k_vals s))
        | (Ok _, s3) => (Ok tt, Kpca s3 (map fact (kept small v)))
        end.
  Proof.
    intros L G. unfold solve_dual. rewrite L.
    set (s1 := match v_out (k_view s) with None => with_out (k_view s) (Some n)
               | Some q => if Nat.ltb n q then set_dim_output (k_view s) n else k_view s end).
    assert (Q : v_out s1 = Some (requested n (k_view s))).
    { unfold s1, requested. destruct (v_out (k_view s)) as [q|] eqn:O; [|reflexivity].
      destruct (Nat.ltb_spec n q); [cbn; f_equal; lia|rewrite O; f_equal; lia]. }
    assert (Rq : requested n (k_view s) <= n) by (unfold requested; destruct (v_out (k_view s)); lia).
    exists s1. split; [exact Q|].
    assert (Fr : v_total s1 = v_total (k_view s) /\ v_idx s1 = v_idx (k_view s) /\ v_primal s1 = v_primal (k_view s) /\ v_attached s1 = v_attached (k_view s)).
    { unfold s1. destruct (v_out (k_view s)) as [q|]; [|now repeat split]. destruct (Nat.ltb n q); now repeat split. }
    destruct Fr as (F1 & F2 & F3 & F4). split; [exact F1|]. split; [exact F2|]. split; [exact F3|]. split; [exact F4|].
    split.
    { unfold s1, requested. destruct (v_out (k_view s)) as [q|]; [|auto]. destruct (Nat.ltb_spec n q); [intros X; discriminate X|].
      split; [reflexivity|]. right. f_equal. lia. }
    split.
    { unfold s1. destruct (v_out (k_view s)) as [q|]; [|auto]. destruct (Nat.ltb_spec n q); [|auto]. right. split; [reflexivity|]. now exists q. }
    rewrite Q. destruct (G _ Rq) as (Lv & M). destruct (eig (requested n (k_view s))) as [v e] eqn:Ee. cbn [fst snd] in *.
    unfold prune. rewrite keep_filter. cbn [snd]. pose proof (kept_length small v) as K.
    replace (requested n (k_view s) - (List.length v - List.length (kept small v))) with (List.length (kept small v)) by lia. reflexivity.
  Qed.

  (** On the whole sample, into variables of the right size or none, the reported
      variables are the kept eigenvectors. *)
  Theorem solve_dual_whole (s : kpca F) n : v_total (k_view s) = Some n -> v_idx (k_view s) = whole n -> good_eig n -> 0 < n ->
    let v := fst (eig (requested n (k_view s))) in let e := snd (eig (requested n (k_view s))) in
    kept small v <> [] ->
    (exists_ (v_dual (k_view s)) = true -> rows (p_val (v_dual (k_view s))) = n /\
       (v_out (k_view s) = Some (List.length (kept small v)) -> cols (p_val (v_dual (k_view s))) = List.length (kept small v)) /\
       (forall q, v_out (k_view s) = Some q -> n < q \/ q = List.length (kept small v)) /\ v_out (k_view s) <> None) ->
    fst (solve_dual orth eig small fact s) = Ok tt /\
    get_dual (k_view (snd (solve_dual orth eig small fact s))) = Ok (snd (prune small v e)) /\
    k_vals (snd (solve_dual orth eig small fact s)) = map fact (kept small v) /\
    v_out (k_view (snd (solve_dual orth eig small fact s))) = Some (List.length (kept small v)).
  Proof.
    intros T I G Hn v e Kn H. assert (L : List.length (v_idx (k_view s)) = n) by (rewrite I; apply whole_length).
    destruct (solve_dual_unfold s n L G) as (s1 & O1 & T1 & I1 & _ & _ & D1 & D2 & E). cbv zeta in E. fold v e in E.
    assert (Rq : requested n (k_view s) <= n) by (unfold requested; destruct (v_out (k_view s)); lia).
    destruct (G _ Rq) as (Lv & M). fold v in Lv. fold e in M. rewrite <- Lv in M.
    pose proof (prune_matrix small v e n M) as Mp.
    assert (Kp : 0 < List.length (kept small v)) by (destruct (kept small v); [now elim Kn|cbn; lia]).
    destruct (update_whole (with_out s1 (Some (List.length (kept small v)))) n (List.length (kept small v)) (snd (prune small v e))) as (A & B & C & D);
      [cbn; rewrite T1; exact T|reflexivity|cbn; rewrite I1; exact I|nia| |exact Mp|].
    - cbn. intros X. destruct (D1 X) as (Y & Z). rewrite Y in X |- *. destruct (H X) as (R & C & Q & N). split; [exact R|].
      destruct Z as [Z|Z]; [now elim N|]. apply C. destruct (Q _ Z) as [Q'|Q']; [lia|]. now rewrite <- Q'.
    - rewrite E. destruct (update_dual orth _ (snd (prune small v e))) as [[u|x] s3]; cbn [fst snd] in *; [|discriminate A].
      repeat split; auto.
  Qed.

  (** When fewer components are kept than the variables have, at least two, solving
      raises; the reported output dimension is already the new one. *)
  Theorem solve_dual_pruned (s : kpca F) n q : v_total (k_view s) = Some n -> v_idx (k_view s) = whole n -> good_eig n -> q <= n ->
    v_out (k_view s) = Some q -> matrix n q (p_val (v_dual (k_view s))) -> 0 < n * q ->
    let v := fst (eig q) in List.length (kept small v) <> q -> List.length (kept small v) <> 1 ->
    fst (solve_dual orth eig small fact s) = Err ERuntimeError /\
    k_vals (snd (solve_dual orth eig small fact s)) = k_vals s /\
    v_dual (k_view (snd (solve_dual orth eig small fact s))) = v_dual (k_view s) /\
    v_out (k_view (snd (solve_dual orth eig small fact s))) = Some (List.length (kept small v)).
  Proof.
    intros T I G Hq O Md P v N N1. assert (L : List.length (v_idx (k_view s)) = n) by (rewrite I; apply whole_length).
    unfold solve_dual. rewrite O, L. destruct (Nat.ltb_spec n q); [lia|]. rewrite O.
    destruct (G q Hq) as (Lv & M). fold v in Lv. pose proof (kept_length small v) as K.
    set (e := snd (eig q)) in *. assert (Ee0 : eig q = (v, e)) by (unfold v, e; now destruct (eig q)). rewrite Ee0. clearbody v e.
    destruct (prune small v e) as [v' e'] eqn:Ep. assert (Ev : v' = kept small v) by (unfold prune in Ep; injection Ep as <- _; apply keep_filter).
    pose proof (prune_matrix small v e n) as Mp. rewrite Lv in Mp. specialize (Mp M). rewrite Ep in Mp. cbn [snd] in Mp. subst v'.
    replace (q - (List.length v - List.length (kept small v))) with (List.length (kept small v)) by lia.
    destruct Md as (D1 & D2 & D3). unfold update_dual. cbn [with_out v_dual].
    assert (X : exists_ (v_dual (k_view s)) = true) by (apply exists_pos; unfold rows, cols; rewrite D1, D2; lia). rewrite X. cbn [with_out v_idx v_dual].
    destruct Mp as (M1 & M2 & M3). rewrite I, (select_whole _ n M1). cbn [bind]. rewrite copy_fails.
    - cbn. repeat split; reflexivity.
    - unfold rows. cbn. now rewrite M1, D1.
    - unfold cols. cbn. rewrite M2. unfold with_out. cbn. rewrite D2. exact N.
    - unfold cols. cbn. now rewrite M2.
  Qed.
  (** When one is kept, it is copied to all columns. *)
  Theorem solve_dual_pruned_one (s : kpca F) n q : v_total (k_view s) = Some n -> v_idx (k_view s) = whole n -> good_eig n -> q <= n ->
    v_out (k_view s) = Some q -> matrix n q (p_val (v_dual (k_view s))) -> 0 < n * q ->
    let v := fst (eig q) in List.length (kept small v) = 1 ->
    fst (solve_dual orth eig small fact s) = Ok tt /\
    v_out (k_view (snd (solve_dual orth eig small fact s))) = Some 1 /\
    exists t, get_dual (k_view (snd (solve_dual orth eig small fact s))) = Ok t /\ t_cols t = q /\
      Forall (fun r => exists x, r = repeat x q) (t_rows t).
  Proof.
    intros T I G Hq O Md P v N. assert (L : List.length (v_idx (k_view s)) = n) by (rewrite I; apply whole_length).
    unfold solve_dual. rewrite O, L. destruct (Nat.ltb_spec n q); [lia|]. rewrite O.
    destruct (G q Hq) as (Lv & M). fold v in Lv. pose proof (kept_length small v) as K.
    set (e := snd (eig q)) in *. assert (Ee0 : eig q = (v, e)) by (unfold v, e; now destruct (eig q)). rewrite Ee0. clearbody v e.
    destruct (prune small v e) as [v' e'] eqn:Ep. assert (Ev : v' = kept small v) by (unfold prune in Ep; injection Ep as <- _; apply keep_filter).
    pose proof (prune_matrix small v e n) as Mp. rewrite Lv in Mp. specialize (Mp M). rewrite Ep in Mp. cbn [snd] in Mp. subst v'.
    replace (q - (List.length v - List.length (kept small v))) with 1 by lia. rewrite N in Mp.
    destruct Md as (D1 & D2 & D3). unfold update_dual. cbn [with_out v_dual].
    assert (X : exists_ (v_dual (k_view s)) = true) by (apply exists_pos; unfold rows, cols; rewrite D1, D2; lia). rewrite X. cbn [with_out v_idx v_dual].
    pose proof Mp as (M1 & M2 & M3). rewrite I, (select_whole _ n M1). cbn [bind].
    assert (Ee : Tensor (cols e') (t_rows e') = e') by (now destruct e'). rewrite Ee.
    rewrite (copy_one (p_val (v_dual (k_view s))) e' n D1 Mp). cbn [fst snd k_view]. split; [reflexivity|]. split; [reflexivity|].
    unfold reset_primal, get_dual, exists_. cbn. unfold rows, cols. cbn. rewrite map_length, M1, D2.
    rewrite (proj2 (Nat.eqb_neq _ _)) by lia. cbn. rewrite I.
    rewrite select_whole by (rewrite map_length; exact M1). cbn.
    eexists. split; [reflexivity|]. cbn. split; [reflexivity|]. apply Forall_map.
    clear M1 Ee. revert M3. generalize (t_rows e'). intros l M3. induction M3 as [|r l Hr M3 IH]; constructor; [|exact IH].
    destruct r as [|x [|y r]]; try discriminate Hr. exists x. reflexivity.
  Qed.
  (** In primal, the solution replaces whatever was there. *)
  Theorem solve_primal_ok (s : kpca F) d : v_feat (k_view s) = Ok d -> v_attached (k_view s) = None -> good_eig d -> 0 < d ->
    (exists_ (v_primal (k_view s)) = true -> rows (p_val (v_primal (k_view s))) = d) ->
    let v := fst (eig (requested d (k_view s))) in let e := snd (eig (requested d (k_view s))) in
    kept small v <> [] ->
    fst (solve_primal eig small s) = Ok tt /\
    get_primal (k_view (snd (solve_primal eig small s))) = Ok (snd (prune small v e)) /\
    k_vals (snd (solve_primal eig small s)) = kept small v /\
    v_out (k_view (snd (solve_primal eig small s))) = Some (List.length (kept small v)) /\
    unset (get_dual (k_view (snd (solve_primal eig small s)))).
  Proof.
    intros Fd At G Hd Hp v e Kn. unfold solve_primal. rewrite Fd.
    set (s1 := match v_out (k_view s) with None => with_out (k_view s) (Some d)
               | Some q => if Nat.ltb d q then set_dim_output (k_view s) d else k_view s end).
    assert (Q : v_out s1 = Some (requested d (k_view s))).
    { unfold s1, requested. destruct (v_out (k_view s)) as [q|] eqn:O; [|reflexivity].
      destruct (Nat.ltb_spec d q); [cbn; f_equal; lia|rewrite O; f_equal; lia]. }
    assert (Rq : requested d (k_view s) <= d) by (unfold requested; destruct (v_out (k_view s)); lia).
    assert (At1 : v_attached s1 = None).
    { unfold s1. destruct (v_out (k_view s)) as [q|]; [destruct (Nat.ltb d q)|]; exact At. }
    assert (Pr1 : v_primal s1 = v_primal (k_view s)).
    { unfold s1. destruct (v_out (k_view s)) as [q|]; [destruct (Nat.ltb d q)|]; reflexivity. }
    rewrite <- Pr1 in Hp. clear Pr1.
    rewrite Q. destruct (G _ Rq) as (Lv & M). fold v in Lv. fold e in M. pose proof (kept_length small v) as K.
    assert (Ee : eig (requested d (k_view s)) = (v, e)) by (unfold v, e; now destruct (eig _)). rewrite Ee. clearbody v e.
    rewrite <- Lv in M. pose proof (prune_matrix small v e d M) as Mp.
    assert (Kp : 0 < List.length (kept small v)) by (destruct (kept small v); [now elim Kn|cbn; lia]).
    destruct (prune small v e) as [v' e'] eqn:Ep. assert (Ev : v' = kept small v) by (unfold prune in Ep; injection Ep as <- _; apply keep_filter). subst v'.
    cbn [snd] in Mp |- *. replace (requested d (k_view s) - (List.length v - List.length (kept small v))) with (List.length (kept small v)) by lia.
    clearbody s1. clear Q. unfold set_primal. cbn [with_out v_attached]. rewrite At1. cbn [reset_dual new_dual v_primal].
    pose proof Mp as (M1 & M2 & M3).
    assert (X : forall i, exists_ (Param i e') = true) by (intros i; apply exists_pos; cbn; unfold rows, cols; rewrite M1, M2; nia).
    set (c := (exists_ (v_primal s1) && (cols (p_val (v_primal s1)) =? rows e') && (rows (p_val (v_primal s1)) =? cols e'))%bool).
    cbn. fold c.
    assert (Two : (if c then match copy_into (p_val (v_primal s1)) e' with
                    | Ok t' => t' = e' | Err _ => False end else True)).
    { destruct c eqn:Ec; [|exact I]. unfold c in Ec. apply andb_prop in Ec as [Ec B2]. apply andb_prop in Ec as [B0 B1]. specialize (Hp B0).
      apply Nat.eqb_eq in B1, B2. unfold rows, cols in B1, B2, Hp. rewrite M1 in B1. rewrite M2 in B2.
      destruct (Nat.eq_dec (List.length (kept small v)) d) as [Ek|Nk].
      - rewrite (copy_same d (List.length (kept small v))); [reflexivity| | |exact Mp]; unfold rows, cols; lia.
      - exfalso. lia. }
    destruct c.
    - destruct (copy_into (p_val (v_primal s1)) e') as [t'|x]; [subst t'|now elim Two].
      unfold get_primal, unset. cbn. rewrite At1, X. cbn. rewrite ?At1, ?X. unfold cols. rewrite M2. repeat split; auto.
    - unfold get_primal, unset. cbn. rewrite At1, X. cbn. rewrite ?At1, ?X. unfold cols. rewrite M2. repeat split; auto.
  Qed.
End View.

Lemma ones_ok n q : matrix n q (ones n q).
Proof.
  split; [apply repeat_length|]. split; [reflexivity|]. apply Forall_forall. intros r H. apply repeat_spec in H. subst r. apply repeat_length.
Qed.
