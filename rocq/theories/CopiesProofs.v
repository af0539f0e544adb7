(** Deep copies: proofs. *)
From Verif Require Import Base Copies CopiesSpec.
From Coq Require Import Lia.
Open Scope nat_scope.
Open Scope string_scope.
Open Scope list_scope.

Section Proofs.
Context {V : Type}.
Implicit Types (h : heap V) (r : record V).

Lemma set_at_length : forall h a f v, List.length (set_at h a f v) = List.length h.
Proof. induction h as [|r h IH]; intros a f v; [reflexivity|]. destruct a; simpl; [reflexivity | rewrite IH; reflexivity]. Qed.
Lemma assigns_length : forall ws h, List.length (assigns h ws) = List.length h.
Proof. induction ws as [|w ws IH]; intro h; [reflexivity|]. unfold assigns in *. simpl. rewrite IH. apply set_at_length. Qed.
Lemma set_at_other : forall h a b f v, a <> b -> nth_error (set_at h a f v) b = nth_error h b.
Proof.
  induction h as [|r h IH]; intros a b f v N; [reflexivity|]. destruct a, b; simpl; try reflexivity; [contradiction N; reflexivity|].
  apply IH. congruence.
Qed.
Lemma set_at_same : forall h a f v, nth_error (set_at h a f v) a = option_map (fun r => set_field r f v) (nth_error h a).
Proof. induction h as [|r h IH]; intros a f v; destruct a; simpl; try reflexivity. apply IH. Qed.

(** What is not a number is never changed. *)
Definition is_data (v : value V) : bool := match v with Data _ => true | _ => false end.
Lemma field_set_field : forall r f g v, match field (set_field r f v) g, field r g with
  | Some a, Some b => a = b \/ (is_data a = true /\ is_data b = true)
  | None, None => True
  | _, _ => False end.
Proof.
  induction r as [|[x w] r IH]; intros f g v; simpl; [exact I|].
  destruct (String.eqb x f) eqn:E; simpl.
  - destruct (String.eqb x g); [|destruct (field r g); [left; reflexivity | exact I]].
    destruct w; [right; split; reflexivity | left; reflexivity | left; reflexivity].
  - destruct (String.eqb x g); [left; reflexivity | apply IH].
Qed.

Lemma read_ext : forall path h h' a n (sel : nat -> bool),
  (forall b, sel b = true -> nth_error h' b = nth_error h b) ->
  (forall b r f c, sel b = true -> nth_error h b = Some r -> (field r f = Some (Ref c) \/ field r f = Some (Closure c)) -> sel c = true) ->
  sel a = true -> n = List.length path -> read h' a path = read h a path.
Proof.
  induction path as [|f p IH]; intros h h' a n sel S C A N; [reflexivity|]. simpl. rewrite (S a A).
  destruct (nth_error h a) as [r|] eqn:R; [|reflexivity]. destruct (field r f) as [v|] eqn:F; [|reflexivity].
  destruct v as [v|b|b]; [reflexivity | |].
  - apply (IH h h' b (List.length p) sel S C); [exact (C a r f b A R (or_introl F)) | reflexivity].
  - apply (IH h h' b (List.length p) sel S C); [exact (C a r f b A R (or_intror F)) | reflexivity].
Qed.
Lemma field_In : forall r f v, field r f = Some v -> In (f, v) r.
Proof.
  induction r as [|[x w] r IH]; intros f v H; simpl in H; [discriminate H|].
  destruct (String.eqb x f) eqn:E; [apply String.eqb_eq in E; subst x; injection H as <-; left; reflexivity | right; apply IH; exact H].
Qed.
Lemma field_shift : forall n r f, field (shift_record n r) f = option_map (shift n) (field r f).
Proof. intros n r f. induction r as [|[x w] r IH]; [reflexivity|]. simpl. destruct (String.eqb x f); [reflexivity | exact IH]. Qed.
Lemma copy_nth_low : forall h a b, b < List.length h -> nth_error (fst (deepcopy h a)) b = nth_error h b.
Proof. intros h a b L. unfold deepcopy. simpl. apply nth_error_app1. exact L. Qed.
Lemma copy_nth_high : forall h a b, nth_error (fst (deepcopy h a)) (b + List.length h) = option_map (shift_record (List.length h)) (nth_error h b).
Proof.
  intros h a b. unfold deepcopy. simpl. rewrite nth_error_app2 by lia. replace (b + List.length h - List.length h) with b by lia.
  rewrite nth_error_map. reflexivity.
Qed.
Lemma nth_lt : forall h b r, nth_error h b = Some r -> b < List.length h.
Proof. intros h b r H. apply nth_error_Some. rewrite H. discriminate. Qed.

(** The original is not changed by copying, and the copy reads the same. *)
Theorem copy_keeps : forall h a b path, closed h -> b < List.length h -> read (fst (deepcopy h a)) b path = read h b path.
Proof.
  intros h a b path C L. apply (read_ext path h (fst (deepcopy h a)) b (List.length path) (fun c => Nat.ltb c (List.length h))).
  - intros c S. apply Nat.ltb_lt in S. apply copy_nth_low. exact S.
  - intros c r f d S R F. apply Nat.ltb_lt. apply (C r f d); [exact (nth_error_In _ _ R)|].
    destruct F as [F|F]; apply field_In in F; [left | right]; exact F.
  - apply Nat.ltb_lt. exact L.
  - reflexivity.
Qed.
Theorem copy_same : forall path h a x, closed h -> a < List.length h -> x < List.length h ->
  read (fst (deepcopy h x)) (a + List.length h) path = read h a path.
Proof.
  induction path as [|f p IH]; intros h a x C L X; [reflexivity|].
  pose proof (copy_nth_high h x a) as N. cbn [read]. rewrite N.
  destruct (nth_error h a) as [r|] eqn:R; [|reflexivity]. cbn [option_map]. rewrite field_shift.
  destruct (field r f) as [v|] eqn:F; [|reflexivity]. cbn [option_map].
  assert (CL : forall c, v = Ref c \/ v = Closure c -> c < List.length h).
  { intros c H. apply (C r f c); [exact (nth_error_In _ _ R)|]. apply field_In in F. destruct H as [-> | ->]; [left | right]; exact F. }
  destruct v as [v|c|c]; cbn [shift]; [reflexivity | |].
  - apply IH; [exact C | apply CL; left; reflexivity | exact X].
  - apply copy_keeps; [exact C | apply CL; right; reflexivity].
Qed.

(** Two parts of the heap that do not refer to each other. *)
Definition apart (sel : nat -> bool) h : Prop :=
  forall b r f c, nth_error h b = Some r -> (field r f = Some (Ref c) \/ field r f = Some (Closure c)) -> sel b = sel c.
Lemma apart_set : forall sel h a f v, apart sel h -> apart sel (set_at h a f v).
Proof.
  intros sel h a f v A b r g c R F. destruct (Nat.eq_dec a b) as [->|N].
  - rewrite set_at_same in R. destruct (nth_error h b) as [r0|] eqn:R0; [|discriminate R]. simpl in R. injection R as <-.
    pose proof (field_set_field r0 f g v) as Q. apply (A b r0 g c R0). destruct F as [F|F]; rewrite F in Q;
      destruct (field r0 g) as [w|]; try contradiction Q; destruct Q as [Q|[Q _]]; try discriminate Q; subst w; [left | right]; reflexivity.
  - rewrite (set_at_other h a b f v N) in R. exact (A b r g c R F).
Qed.
Lemma apart_read : forall sel ws h a path, apart sel h -> (forall w, In w ws -> sel (as_obj w) = negb (sel a)) ->
  read (assigns h ws) a path = read h a path.
Proof.
  intros sel ws. induction ws as [|w ws IH]; intros h a path A W; [reflexivity|].
  unfold assigns in *. simpl. rewrite IH; [| apply apart_set; exact A | intros w' I; apply W; right; exact I].
  apply (read_ext path h _ a (List.length path) (fun c => Bool.eqb (sel c) (sel a))).
  - intros b S. apply set_at_other. intro E. subst b. apply Bool.eqb_prop in S. rewrite (W w (or_introl eq_refl)) in S. destruct (sel a); discriminate S.
  - intros b r f c S R F. rewrite <- (A b r f c R F). exact S.
  - apply Bool.eqb_reflx.
  - reflexivity.
Qed.
Lemma copy_apart : forall h a, closed h -> no_closure h -> apart (fun b => Nat.ltb b (List.length h)) (fst (deepcopy h a)).
Proof.
  intros h a C NC b r f c R F. cbn beta.
  destruct (Nat.ltb b (List.length h)) eqn:B.
  - apply Nat.ltb_lt in B. rewrite (copy_nth_low h a b B) in R. symmetry. apply Nat.ltb_lt. apply (C r f c); [exact (nth_error_In _ _ R)|].
    destruct F as [F|F]; apply field_In in F; [left | right]; exact F.
  - apply Nat.ltb_ge in B. replace b with ((b - List.length h) + List.length h) in R by lia. rewrite copy_nth_high in R.
    destruct (nth_error h (b - List.length h)) as [r0|] eqn:R0; [|discriminate R]. simpl in R. injection R as <-.
    rewrite field_shift in F. destruct F as [F|F]; destruct (field r0 f) as [w|] eqn:F0; try discriminate F; destruct w as [w|d|d]; try discriminate F; simpl in F.
    + injection F as <-. symmetry. apply Nat.ltb_ge. lia.
    + exfalso. apply (NC r0 f d); [exact (nth_error_In _ _ R0) | apply field_In; exact F0].
Qed.
(** Without functions, neither sees what happens to the other. *)
Theorem copy_independent : forall h a path ws, closed h -> no_closure h -> a < List.length h ->
  let '(h', a') := deepcopy h a in
  ((forall w, In w ws -> of_copy (List.length h) w) -> read (assigns h' ws) a path = read h a path) /\
  ((forall w, In w ws -> of_original (List.length h) w) -> read (assigns h' ws) a' path = read h a path).
Proof.
  intros h a path ws C NC A. pose proof (copy_apart h a C NC) as AP. destruct (deepcopy h a) as [h' a'] eqn:D.
  assert (H' : h' = fst (deepcopy h a)) by (rewrite D; reflexivity). assert (A' : a' = a + List.length h) by (unfold deepcopy in D; congruence).
  cbn [fst] in AP. split; intro W.
  - rewrite (apart_read _ ws h' a path AP).
    + rewrite H'. apply copy_keeps; assumption.
    + intros w I. specialize (W w I). unfold of_copy in W. assert (E1 : Nat.ltb (as_obj w) (List.length h) = false) by (apply Nat.ltb_ge; exact W).
      assert (E2 : Nat.ltb a (List.length h) = true) by (apply Nat.ltb_lt; exact A). rewrite E1, E2. reflexivity.
  - rewrite (apart_read _ ws h' a' path AP).
    + rewrite H', A'. apply copy_same; assumption.
    + intros w I. specialize (W w I). unfold of_original in W. assert (E1 : Nat.ltb (as_obj w) (List.length h) = true) by (apply Nat.ltb_lt; exact W).
      assert (E2 : Nat.ltb a' (List.length h) = false) by (apply Nat.ltb_ge; lia). rewrite E1, E2. reflexivity.
Qed.

(** A function keeps reading the object it was written in. *)
Lemma assigns_field : forall ws h a r f, nth_error h a = Some r ->
  exists r', nth_error (assigns h ws) a = Some r' /\
  match field r' f, field r f with
  | Some x, Some y => x = y \/ (is_data x = true /\ is_data y = true)
  | None, None => True | _, _ => False end.
Proof.
  induction ws as [|w ws IH]; intros h a r f R.
  - exists r. split; [exact R|]. destruct (field r f); [left; reflexivity | exact I].
  - unfold assigns in *. simpl. destruct (Nat.eq_dec (as_obj w) a) as [E|N].
    + assert (R1 : nth_error (set_at h (as_obj w) (as_field w) (as_val w)) a = Some (set_field r (as_field w) (as_val w))).
      { subst a. rewrite set_at_same, R. reflexivity. }
      destruct (IH _ a _ f R1) as [r' [R2 Q]]. exists r'. split; [exact R2|].
      pose proof (field_set_field r (as_field w) f (as_val w)) as P.
      destruct (field r' f) as [x|], (field (set_field r (as_field w) (as_val w)) f) as [y|], (field r f) as [z|]; try contradiction; try exact I.
      destruct Q as [->|[Q1 Q2]]; [exact P|]. destruct P as [<-|[P1 P2]]; right; split; assumption.
    + apply IH. rewrite (set_at_other _ _ _ _ _ N). exact R.
Qed.
Theorem closure_reads : forall h a r f c path ws, nth_error h a = Some r -> field r f = Some (Closure c) -> a < List.length h ->
  let '(h', a') := deepcopy h a in
  read (assigns h' ws) a' (f :: path) = read (assigns h' ws) c path /\ read (assigns h' ws) a (f :: path) = read (assigns h' ws) c path.
Proof.
  intros h a r f c path ws R F L. destruct (deepcopy h a) as [h' a'] eqn:D.
  assert (H' : h' = fst (deepcopy h a)) by (rewrite D; reflexivity). assert (A' : a' = a + List.length h) by (unfold deepcopy in D; congruence).
  assert (R1 : nth_error h' a = Some r) by (rewrite H', copy_nth_low by exact L; exact R).
  assert (R2 : nth_error h' a' = Some (shift_record (List.length h) r)) by (rewrite H', A', copy_nth_high, R; reflexivity).
  split; cbn [read].
  - destruct (assigns_field ws h' a' _ f R2) as [r' [E Q]]. rewrite E. rewrite field_shift, F in Q. simpl in Q.
    destruct (field r' f) as [x|]; [|contradiction Q]. destruct Q as [->|[_ Q]]; [reflexivity | discriminate Q].
  - destruct (assigns_field ws h' a _ f R1) as [r' [E Q]]. rewrite E. rewrite F in Q.
    destruct (field r' f) as [x|]; [|contradiction Q]. destruct Q as [->|[_ Q]]; [reflexivity | discriminate Q].
Qed.

(** Deciders for the examples. *)
Definition closedb h : bool := forallb (fun r => forallb (fun fv : string * value V => match snd fv with Data _ => true | Ref b | Closure b => Nat.ltb b (List.length h) end) r) h.
Definition no_closureb h : bool := forallb (fun r => forallb (fun fv : string * value V => match snd fv with Closure _ => false | _ => true end) r) h.
Lemma closedb_sound : forall h, closedb h = true -> closed h.
Proof.
  intros h H r f b I J. unfold closedb in H. rewrite forallb_forall in H. specialize (H r I). rewrite forallb_forall in H.
  destruct J as [J|J]; specialize (H _ J); simpl in H; apply Nat.ltb_lt; exact H.
Qed.
Lemma no_closureb_sound : forall h, no_closureb h = true -> no_closure h.
Proof.
  intros h H r f b I J. unfold no_closureb in H. rewrite forallb_forall in H. specialize (H r I). rewrite forallb_forall in H.
  specialize (H _ J). discriminate H.
Qed.
End Proofs.
