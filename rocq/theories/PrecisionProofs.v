(** Who follows a change of the default types: proofs. *)
From Coq Require Import QArith.
From Verif Require Import Base BaseProofs Precision PrecisionSpec.
Open Scope string_scope.
Open Scope list_scope.

Lemma run_app s a b : run s (a ++ b) = run (run s a) b.
Proof. unfold run. apply fold_left_app. Qed.
Lemma run_snoc s a o : run s (a ++ [o]) = snd (step (run s a) o).
Proof. rewrite run_app. reflexivity. Qed.

Lemma now_chosen os : now (run imported os) = G (chosen_f (rev os)) (chosen_i (rev os)) (chosen_eps (rev os)).
Proof.
  induction os as [|o os IH] using rev_ind; [reflexivity|].
  rewrite run_snoc, rev_app_distr. cbn [rev app]. destruct o as [[d|]|[d|]|e|m]; cbn [step snd].
  - rewrite IH. reflexivity.
  - exact IH.
  - rewrite IH. reflexivity.
  - exact IH.
  - cbn [chosen_f chosen_i chosen_eps]. destruct (Qle_bool 0 e); cbn [snd]; [rewrite IH; reflexivity | exact IH].
  - cbn [chosen_f chosen_i chosen_eps]. destruct (dmem _ _); [exact IH|]. exact IH.
Qed.
Lemma get_chosen os n : get (now (run imported os)) n = chosen os n.
Proof. rewrite now_chosen. destruct n; reflexivity. Qed.

Lemma dget_dset {V} (d : dict V) k v k' : dget (dset d k v) k' = if String.eqb k k' then Some v else dget d k'.
Proof.
  induction d as [|[a w] d IH]; cbn [dset dget].
  - reflexivity.
  - destruct (String.eqb a k) eqn:A.
    + apply String.eqb_eq in A. subst a. cbn [dget]. destruct (String.eqb k k'); reflexivity.
    + cbn [dget]. rewrite IH. destruct (String.eqb a k') eqn:B; [|reflexivity].
      destruct (String.eqb k k') eqn:C; [|reflexivity].
      apply String.eqb_eq in B. apply String.eqb_eq in C. subst. rewrite String.eqb_refl in A. discriminate A.
Qed.

(** Something loaded keeps what it had. *)
Lemma step_keeps s o m g : dget (at_load s) m = Some g -> dget (at_load (snd (step s o))) m = Some g.
Proof.
  intro H. destruct o as [[d|]|[d|]|e|m']; cbn [step snd]; try exact H.
  - destruct (Qle_bool 0 e); exact H.
  - destruct (dmem (at_load s) m') eqn:M; [exact H|]. cbn [at_load]. rewrite dget_dset.
    destruct (String.eqb m' m) eqn:A; [|exact H]. apply String.eqb_eq in A. subst m'. unfold dmem in M. rewrite H in M. discriminate M.
Qed.
Lemma run_keeps os s m g : dget (at_load s) m = Some g -> dget (at_load (run s os)) m = Some g.
Proof.
  revert s. induction os as [|o os IH]; intros s H; [exact H|]. apply IH. apply step_keeps. exact H.
Qed.
Lemma step_other s o m : o <> Load m -> dget (at_load (snd (step s o))) m = dget (at_load s) m.
Proof.
  intro N. destruct o as [[d|]|[d|]|e|m']; cbn [step snd]; try reflexivity.
  - destruct (Qle_bool 0 e); reflexivity.
  - destruct (dmem (at_load s) m'); [reflexivity|]. cbn [at_load]. rewrite dget_dset.
    destruct (String.eqb m' m) eqn:A; [|reflexivity]. apply String.eqb_eq in A. subst m'. elim N. reflexivity.
Qed.
Lemma run_other os s m : ~ In (Load m) os -> dget (at_load (run s os)) m = dget (at_load s) m.
Proof.
  revert s. induction os as [|o os IH]; intros s N; [reflexivity|].
  change (run s (o :: os)) with (run (snd (step s o)) os). rewrite IH.
  - apply step_other. intro E. apply N. left. exact E.
  - intro I. apply N. right. exact I.
Qed.
Definition op_eq_dec (a b : op) : {a = b} + {a <> b}.
Proof.
  decide equality; try apply String.string_dec.
  - destruct a0, a1; try (right; discriminate); try (left; reflexivity). destruct (dtype_eq_dec d d0) as [E|N]; [left; congruence | right; congruence].
  - destruct a0, a1; try (right; discriminate); try (left; reflexivity). destruct (dtype_eq_dec d d0) as [E|N]; [left; congruence | right; congruence].
  - decide equality; [apply Pos.eq_dec | apply Z.eq_dec].
Defined.
Lemma first_load os m : In (Load m) os -> exists a b, os = a ++ Load m :: b /\ ~ In (Load m) a.
Proof.
  induction os as [|o os IH]; intro H; [elim H|]. destruct (op_eq_dec o (Load m)) as [E|N].
  - exists [], os. split; [rewrite E; reflexivity | intro F; exact F].
  - destruct H as [H|H]; [elim N; exact H|]. destruct (IH H) as (a & b & E & F). exists (o :: a), b.
    split; [rewrite E; reflexivity|]. intros [G|G]; [exact (N G) | exact (F G)].
Qed.

(** ** The two ways of reading *)
Theorem through_follows os m n : access_of m n = Some Through -> read (run imported os) m n = Some (chosen os n).
Proof. intro A. unfold read. rewrite A, get_chosen. reflexivity. Qed.

Theorem copied_at_load os m n v : access_of m n = Some Copied -> m <> "kerch" ->
  read (run imported os) m n = Some v <->
  exists a b, os = a ++ Load m :: b /\ ~ In (Load m) a /\ v = chosen a n.
Proof.
  intros A Nk.
  assert (At : forall a b, ~ In (Load m) a -> read (run imported (a ++ Load m :: b)) m n = Some (chosen a n)).
  { intros a b H. unfold read. rewrite A, run_app. change (run (run imported a) (Load m :: b)) with (run (snd (step (run imported a) (Load m))) b).
    assert (D : dget (at_load (run imported a)) m = None).
    { rewrite run_other by exact H. cbn [imported at_load dget]. destruct (String.eqb "kerch" m) eqn:K; [|reflexivity].
      apply String.eqb_eq in K. elim Nk. symmetry. exact K. }
    rewrite (run_keeps b _ m (now (run imported a))).
    - cbn [option_map]. rewrite get_chosen. reflexivity.
    - cbn [step snd]. unfold dmem. rewrite D. cbn [at_load]. rewrite dget_dset, String.eqb_refl. reflexivity. }
  split.
  - intro H. destruct (in_dec op_eq_dec (Load m) os) as [I|N].
    + destruct (first_load os m I) as (a & b & E & F). exists a, b. rewrite E, (At a b F) in H. injection H as H.
      split; [exact E|]. split; [exact F | symmetry; exact H].
    + exfalso. unfold read in H. rewrite A in H. rewrite run_other in H by exact N. cbn [imported at_load dget] in H.
      destruct (String.eqb "kerch" m) eqn:K; [|discriminate H]. apply String.eqb_eq in K. apply Nk. symmetry. exact K.
  - intros (a & b & E & F & V). rewrite E, V. apply At. exact F.
Qed.
Theorem kerch_never os n : access_of "kerch" n = Some Copied -> read (run imported os) "kerch" n = Some (get defaults n).
Proof. intro A. unfold read. rewrite A. rewrite (run_keeps os imported "kerch" defaults) by reflexivity. reflexivity. Qed.

(** ** Choosing at the beginning *)
Lemma chosen_no n os a : (forall o, In o os -> chooses n o = false) -> chosen (a ++ os) n = chosen a n.
Proof.
  induction os as [|o os IH] using rev_ind; intro H; [rewrite app_nil_r; reflexivity|].
  rewrite app_assoc. assert (E : chosen (a ++ os) n = chosen a n) by (apply IH; intros x I; apply H; apply in_or_app; left; exact I).
  rewrite <- E. assert (C : chooses n o = false) by (apply H; apply in_or_app; right; left; reflexivity).
  unfold chosen. rewrite rev_app_distr. cbn [rev app].
  destruct n, o as [[d|]|[d|]|e|m]; try reflexivity; discriminate C.
Qed.
Theorem early_agree early late m n v : m <> "kerch" ->
  (forall o, In o early -> is_load o = false) -> (forall o, In o late -> chooses n o = false) ->
  read (run imported (early ++ late)) m n = Some v -> v = chosen early n.
Proof.
  intros Nk He Hl H. destruct (access_of m n) as [[|]|] eqn:A.
  - rewrite (through_follows _ _ _ A) in H. injection H as H. rewrite <- H. apply chosen_no. exact Hl.
  - apply (copied_at_load _ m n v A Nk) in H. destruct H as (x & y & E & F & V). rewrite V.
    assert (P : exists z, x = early ++ z /\ forall o, In o z -> In o late).
    { clear V F Hl. revert x y E. induction early as [|o early IH]; intros x y E.
      - exists x. split; [reflexivity|]. intros o I. cbn [app] in E. rewrite E. apply in_or_app. left. exact I.
      - destruct x as [|o' x].
        + cbn [app] in E. injection E as E _. assert (C := He o (or_introl eq_refl)). rewrite E in C. discriminate C.
        + cbn [app] in E. injection E as E0 E1. destruct (IH (fun q I => He q (or_intror I)) x y E1) as (z & Z & Q).
          exists z. split; [rewrite E0, Z; reflexivity | exact Q]. }
    destruct P as (z & Z & Q). rewrite Z. apply chosen_no. intros o I. apply Hl. apply Q. exact I.
  - unfold read in H. rewrite A in H. discriminate H.
Qed.

(** ** What a call leaves alone *)
Theorem rejected s a e :
  step s (SetF NoDtype) = (Err EAssertionError, s) /\ step s (SetI NoDtype) = (Err EAssertionError, s) /\
  (Qle_bool 0 e = false -> step s (SetEps e) = (Err EAssertionError, s)) /\
  (forall o, fst (step s o) <> Ok tt -> snd (step s o) = s) /\
  (a = NoDtype -> fst (step s (SetF a)) = Err EAssertionError).
Proof.
  split; [reflexivity|]. split; [reflexivity|]. split; [|split].
  - intro H. cbn [step]. rewrite H. reflexivity.
  - intros o H. destruct o as [[d|]|[d|]|q|m]; cbn [step fst snd] in *; try reflexivity; try (elim H; reflexivity).
    destruct (Qle_bool 0 q); [elim H; reflexivity | reflexivity].
  - intro E. rewrite E. reflexivity.
Qed.
Theorem others s o m n : chooses n o = false -> is_load o = false -> read (snd (step s o)) m n = read s m n.
Proof.
  intros C L. unfold read. destruct (access_of m n) as [a|]; [|reflexivity]. destruct o as [[d|]|[d|]|q|m']; try discriminate L; cbn [step snd]; try reflexivity.
  - destruct n, a; try discriminate C; reflexivity.
  - destruct n, a; try discriminate C; reflexivity.
  - destruct (Qle_bool 0 q); [|reflexivity]. destruct n, a; try discriminate C; reflexivity.
Qed.

(** ** Solving *)
Theorem solve_same c : solve_primal_types c c = Ok c.
Proof. unfold solve_primal_types. destruct (dtype_eq_dec _ _) as [E|N]; [rewrite E|]; destruct c; try reflexivity; elim N; reflexivity. Qed.
Theorem solve_types c l : floating c -> floating l ->
  ((width l <= width c)%nat -> solve_primal_types c l = Ok c) /\ ((width c < width l)%nat -> solve_primal_types c l = Err ERuntimeError).
Proof.
  intros [-> | [-> | ->]] [-> | [-> | ->]]; split; intro H; cbn in H; try lia; reflexivity.
Qed.

(** ** Who reads what *)
Theorem copies_listed m n : access_of m n = Some Copied <-> In (m, n)
  [("level.single_view.View", FTYPE); ("kernel.random_features.random_features", FTYPE); ("kernel.random_features.rff", FTYPE);
   ("transform.all.Sphere", EPS); ("transform.all.MinMaxNormalization", EPS); ("transform.all.Variance", EPS);
   ("data.datasets", FTYPE); ("utils.cast", FTYPE); ("utils.cast", ITYPE); ("kerch", FTYPE); ("kerch", ITYPE)].
Proof.
  assert (L : forall l : list (string * name * access), (exists a, find (fun r => String.eqb (fst (fst r)) m && name_eqb (snd (fst r)) n) l = Some a) ->
              exists a, find (fun r => String.eqb (fst (fst r)) m && name_eqb (snd (fst r)) n) l = Some (m, n, a) /\ In (m, n, a) l).
  { intros l [r H]. assert (F := find_some _ _ H). destruct F as [I T]. destruct r as [[m' n'] a]. cbn [fst snd] in T.
    apply andb_prop in T. destruct T as [T1 T2]. apply String.eqb_eq in T1. assert (E : n' = n) by (destruct n', n; try discriminate T2; reflexivity).
    subst m' n'. exists a. exact (conj H I). }
  split.
  - intro H. unfold access_of in H. destruct (find _ readers) as [r|] eqn:F; [|discriminate H].
    destruct (L readers (ex_intro _ r F)) as (a & G & I). rewrite F in G. injection G as G. subst r. cbn in H. injection H as H. subst a.
    assert (C : forallb (fun r => match r with (m, n, Copied) => existsb (fun x => String.eqb (fst x) m && name_eqb (snd x) n)
       [("level.single_view.View", FTYPE); ("kernel.random_features.random_features", FTYPE); ("kernel.random_features.rff", FTYPE);
        ("transform.all.Sphere", EPS); ("transform.all.MinMaxNormalization", EPS); ("transform.all.Variance", EPS);
        ("data.datasets", FTYPE); ("utils.cast", FTYPE); ("utils.cast", ITYPE); ("kerch", FTYPE); ("kerch", ITYPE)] | _ => true end) readers = true)
      by (vm_compute; reflexivity).
    rewrite forallb_forall in C. assert (D := C _ I). cbv beta iota in D. apply existsb_exists in D. destruct D as ([m' n'] & J & T).
    cbn [fst snd] in T. apply andb_prop in T. destruct T as [T1 T2]. apply String.eqb_eq in T1.
    assert (E : n' = n) by (destruct n', n; try discriminate T2; reflexivity). subst m' n'. exact J.
  - intro H. repeat (destruct H as [H|H]; [injection H as <- <-; vm_compute; reflexivity|]). elim H.
Qed.
