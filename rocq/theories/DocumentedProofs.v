(** The options of the documentation: proofs. *)
From Coq Require Import Permutation.
From Verif Require Import Base BaseProofs Classes Abstract AbstractSpec Options OptionsSpec OptionsProofs DocumentedSpec.
Open Scope nat_scope.
Open Scope string_scope.
Open Scope list_scope.

Definition name_in (x : string * string) (l : list (string * string)) : bool := existsb (fun y => String.eqb (fst x) (fst y) && String.eqb (snd x) (snd y)) l.
Lemma name_in_spec : forall x l, name_in x l = true <-> In x l.
Proof.
  intros [a b] l. unfold name_in. rewrite existsb_exists. split.
  - intros [[c d] [I E]]. apply andb_prop in E. destruct E as [E1 E2]. cbn [fst snd] in *. apply String.eqb_eq in E1. apply String.eqb_eq in E2.
    rewrite E1, E2. exact I.
  - intro I. exists (a, b). split; [exact I|]. cbn [fst snd]. rewrite !String.eqb_refl. reflexivity.
Qed.
(** The class of the chain that reads a name, the value being that of the caller or the documented
    one. *)
Definition reads_it (mro : cls) (c n : string) (d : option value) : bool :=
  existsb (fun x => smem n (names_read (layer_of x)) &&
     (overruled mro x n ||
      match d with
      | None => true
      | Some v => String.eqb n "num_sample" || String.eqb n "dim_input" || eq_ov (documented_default mro x n) (Some v)
      end)) (from c mro).
Definition doc_check (mro : cls) : bool :=
  forallb (fun cl => if smem (fst cl) mro then
     forallb (fun nd => name_in (fst cl, fst nd) misnamed || reads_it mro (fst cl) (fst nd) (snd nd)) (snd cl) else true) documentation.
Lemma all_documented : forallb doc_check objects = true.
Proof. vm_compute. reflexivity. Qed.

Lemma from_In : forall c mro x, In x (from c mro) -> In x mro.
Proof. intros c mro x. induction mro as [|y mro IH]; intro I; [exact I|]. cbn [from] in I. destruct (String.eqb y c); [exact I | right; apply IH, I]. Qed.
Lemma doc_read : forall mro c n d, In mro objects -> In c mro -> documented c n d -> ~ In (c, n) misnamed ->
  exists x, In x (from c mro) /\ In n (names_read (layer_of x)) /\
    (overruled mro x n = false -> forall v, d = Some v -> ~ dimension n -> documented_default mro x n = Some v).
Proof.
  intros mro c n d I J [l [D1 D2]] M. pose proof all_documented as A. rewrite forallb_forall in A. specialize (A mro I). unfold doc_check in A.
  rewrite forallb_forall in A. specialize (A (c, l) D1). cbn [fst snd] in A. rewrite (proj2 (smem_In c mro) J) in A.
  rewrite forallb_forall in A. specialize (A (n, d) D2). cbn [fst snd] in A. apply orb_prop in A. destruct A as [A|A]; [apply name_in_spec in A; contradiction|].
  unfold reads_it in A. apply existsb_exists in A. destruct A as [x [X1 X2]]. apply andb_prop in X2. destruct X2 as [X2 X3].
  exists x. split; [exact X1|]. split; [apply smem_In, X2|]. intros O v E ND. rewrite O in X3. cbn [orb] in X3. subst d.
  apply orb_prop in X3. destruct X3 as [X3|X3]; [|apply eq_ov_eq, X3]. exfalso. apply ND.
  apply orb_prop in X3. destruct X3 as [X3|X3]; apply String.eqb_eq in X3; [left | right]; exact X3.
Qed.

(** An option that nobody reads has no effect. *)
Section Unread.
  Variables (tb : string -> layer) (n : string).
  Lemma same_over : forall a kw kw', same_but n kw kw' -> same_but n (over a kw) (over a kw').
  Proof. intros a kw kw' H m M. unfold over. rewrite !dget_app, (H m M). reflexivity. Qed.
  Lemma same_over_left : forall a kw kw', same_but n kw kw' -> same_but n (over kw a) (over kw' a).
  Proof. intros a kw kw' H m M. unfold over. rewrite !dget_app, (H m M). reflexivity. Qed.
  Lemma same_without : forall k kw kw', same_but n kw kw' -> same_but n (without k kw) (without k kw').
  Proof. intros k kw kw' H m M. rewrite !dget_without, (H m M). reflexivity. Qed.
  Lemma same_reads : forall c rs kw kw', ~ In n (map fst rs) -> same_but n kw kw' ->
    match read_options c kw rs, read_options c kw' rs with
    | Ok (o, k), Ok (o', k') => o = o' /\ same_but n k k'
    | Err e, Err e' => e = e'
    | _, _ => False
    end.
  Proof.
    intros c rs. induction rs as [|[m d] rs IH]; intros kw kw' N S; [split; [reflexivity | exact S]|].
    cbn [map fst] in N. assert (M : m <> n) by (intro E; apply N; left; exact E).
    cbn [read_options]. unfold read_option. cbn [fst snd]. rewrite (S m M). destruct d as [v|].
    - cbn [bind fst snd]. specialize (IH (without m kw) (without m kw') (fun H => N (or_intror H)) (same_without m kw kw' S)).
      destruct (read_options c (without m kw) rs) as [[o k]|e], (read_options c (without m kw') rs) as [[o' k']|e']; try contradiction; cbn [bind fst snd].
      + destruct IH as [-> IH2]. split; [reflexivity | exact IH2].
      + exact IH.
    - destruct (dget kw' m) as [w|]; [|reflexivity]. cbn [bind fst snd]. specialize (IH kw kw' (fun H => N (or_intror H)) S).
      destruct (read_options c kw rs) as [[o k]|e], (read_options c kw' rs) as [[o' k']|e']; try contradiction; cbn [bind fst snd].
      + destruct IH as [-> IH2]. split; [reflexivity | exact IH2].
      + exact IH.
  Qed.
  Lemma same_warns : forall c kw kw', n <> "squared" -> n <> "requires_bias" -> same_but n kw kw' -> warns c kw = warns c kw'.
  Proof.
    intros c kw kw' N1 N2 S. unfold warns. rewrite (S "squared" (fun E => N1 (eq_sym E))), (S "requires_bias" (fun E => N2 (eq_sym E))). reflexivity.
  Qed.
  Theorem unread : forall mro kw kw', n <> "squared" -> n <> "requires_bias" -> (forall c, In c mro -> ~ In n (names_read (tb c))) ->
    same_but n kw kw' -> construct tb mro kw = construct tb mro kw'.
  Proof.
    intros mro. induction mro as [|c mro IH]; intros kw kw' N1 N2 U S; [reflexivity|]. cbn [construct].
    pose proof (same_over (l_defaults (tb c)) kw kw' S) as S1.
    rewrite (same_warns c _ _ N1 N2 S1). destruct (warns c (over (l_defaults (tb c)) kw')); [reflexivity|].
    assert (UC : ~ In n (map fst (l_before (tb c))) /\ ~ In n (map fst (l_after (tb c)))).
    { pose proof (U c (or_introl eq_refl)) as X. unfold names_read in X. rewrite map_app in X. split; intro H; apply X, in_or_app; [left | right]; exact H. }
    destruct UC as [U1 U2].
    pose proof (same_reads c (l_before (tb c)) _ _ U1 S1) as R1.
    destruct (read_options c (over (l_defaults (tb c)) kw) (l_before (tb c))) as [[o k]|e], (read_options c (over (l_defaults (tb c)) kw') (l_before (tb c))) as [[o' k']|e'];
      try contradiction; cbn [bind fst snd]; [|rewrite R1; reflexivity].
    destruct R1 as [-> R1]. pose proof (same_over_left (forced c) k k' R1) as S2.
    rewrite (IH _ _ N1 N2 (fun x H => U x (or_intror H)) S2). destruct (construct tb mro (over k' (forced c))) as [r|e]; [|reflexivity]. cbn [bind].
    pose proof (same_reads c (l_after (tb c)) _ _ U2 S2) as R2.
    destruct (read_options c (over k (forced c)) (l_after (tb c))) as [[a b]|e], (read_options c (over k' (forced c)) (l_after (tb c))) as [[a' b']|e'];
      try contradiction; cbn [bind fst snd]; [destruct R2 as [-> _] | rewrite R2]; reflexivity.
  Qed.
End Unread.
Definition unread_check (mro : cls) : bool := forallb (fun c => forallb (fun cn => negb (smem (snd cn) (names_read (layer_of c)))) misnamed) mro.
Lemma all_unread : forallb unread_check objects = true.
Proof. vm_compute. reflexivity. Qed.
Lemma misnamed_unread : forall mro c n, In mro objects -> In (c, n) misnamed -> forall x, In x mro -> ~ In n (names_read (layer_of x)).
Proof.
  intros mro c n I M x J H. pose proof all_unread as A. rewrite forallb_forall in A. specialize (A mro I). unfold unread_check in A.
  rewrite forallb_forall in A. specialize (A x J). rewrite forallb_forall in A. specialize (A (c, n) M). cbn [snd] in A.
  apply smem_In in H. rewrite H in A. discriminate A.
Qed.
Lemma misnamed_other : forall c n, In (c, n) misnamed -> n <> "squared" /\ n <> "requires_bias".
Proof. intros c n [H|[H|[H|[]]]]; injection H as <- <-; split; discriminate. Qed.
