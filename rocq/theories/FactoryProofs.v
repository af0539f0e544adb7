(** Proofs about names. *)
From Coq Require Import Ascii.
From Verif Require Import Base Factory FactorySpec.
Open Scope string_scope.

Fixpoint all_bytes (n : nat) (P : ascii -> bool) : bool :=
  match n with O => true | S n' => P (ascii_of_nat n') && all_bytes n' P end.
Lemma all_bytes_spec P : all_bytes 256 P = true -> forall a, P a = true.
Proof.
  assert (G : forall n, all_bytes n P = true -> forall k, (k < n)%nat -> P (ascii_of_nat k) = true).
  { induction n as [|n IH]; intros H k L; [lia|]. cbn in H. apply andb_prop in H as (H1 & H2).
    destruct (Nat.eq_dec k n) as [->|D]; [exact H1|]. apply IH; [exact H2|lia]. }
  intros H a. rewrite <- (ascii_nat_embedding a). apply (G 256 H). apply nat_ascii_bounded.
Qed.
Definition pair_eqb (p q : ascii * ascii) : bool := Ascii.eqb (fst p) (fst q) && Ascii.eqb (snd p) (snd q).
Definition same_letterb (a b : ascii) : bool :=
  Ascii.eqb a b || existsb (pair_eqb (a, b)) alphabet || existsb (pair_eqb (b, a)) alphabet.
Lemma pair_in p l : existsb (pair_eqb p) l = true <-> In p l.
Proof.
  rewrite existsb_exists. split.
  - intros ([c d] & I & E). destruct p as [a b]. apply andb_prop in E as (E1 & E2).
    apply Ascii.eqb_eq in E1, E2. cbn in E1, E2. now subst.
  - intros I. exists p. split; [exact I|]. destruct p. unfold pair_eqb. now rewrite !Ascii.eqb_refl.
Qed.
Lemma same_letterb_spec a b : same_letterb a b = true <-> same_letter a b.
Proof.
  unfold same_letterb, same_letter. rewrite !orb_true_iff, Ascii.eqb_eq, !pair_in. tauto.
Qed.
Lemma lower_char_table : all_bytes 256 (fun a => all_bytes 256 (fun b =>
  Bool.eqb (Ascii.eqb (lower_char a) (lower_char b)) (same_letterb a b))) = true.
Proof. vm_compute. reflexivity. Qed.
Lemma lower_char_same a b : lower_char a = lower_char b <-> same_letter a b.
Proof.
  pose proof (all_bytes_spec _ (all_bytes_spec _ lower_char_table a) b) as H. cbv beta in H. apply Bool.eqb_prop in H.
  rewrite <- same_letterb_spec, <- H. symmetry. apply Ascii.eqb_eq.
Qed.

Fixpoint remove_all (p : ascii -> bool) (s : string) : string :=
  match s with EmptyString => "" | String d s' => if p d then remove_all p s' else String d (remove_all p s') end.
Lemma same_name_lower skip p s c : (forall a, p a = true <-> skip a) ->
  (same_name skip s c <-> lower (remove_all p s) = lower c).
Proof.
  intros Hp. split.
  - induction 1 as [|a s c H _ IH|a b s c N L _ IH]; [reflexivity| |]; cbn [remove_all].
    + now rewrite (proj2 (Hp a) H).
    + destruct (p a) eqn:E; [now apply Hp in E|]. cbn [lower]. apply lower_char_same in L. now rewrite L, IH.
  - revert c. induction s as [|a s IH]; intros c; cbn [remove_all].
    + destruct c as [|b c]; [constructor|discriminate].
    + destruct (p a) eqn:E.
      * intros H. apply SameSkip; [now apply Hp|]. now apply IH.
      * destruct c as [|b c]; [discriminate|]. cbn [lower]. intros H. injection H as H1 H2.
        apply SameLetter; [|now apply lower_char_same|now apply IH]. intros K. apply Hp in K. congruence.
Qed.
Lemma remove_char_all c s : remove_char c s = remove_all (fun d => Ascii.eqb d c) s.
Proof. induction s as [|d s IH]; [reflexivity|]. cbn. now rewrite IH. Qed.
Lemma remove_two c d s : remove_char d (remove_char c s) = remove_all (fun e => Ascii.eqb e c || Ascii.eqb e d) s.
Proof.
  induction s as [|e s IH]; [reflexivity|]. cbn [remove_char remove_all].
  destruct (Ascii.eqb e c); cbn [orb]; [exact IH|]. cbn [remove_char]. rewrite IH. reflexivity.
Qed.
Lemma remove_none s : remove_all (fun _ => false) s = s.
Proof. induction s as [|e s IH]; [reflexivity|]. cbn. now rewrite IH. Qed.
Lemma same_underscore s c : same_name underscore s c <-> lower (remove_char "_" s) = lower c.
Proof. rewrite remove_char_all. apply same_name_lower. intros a. apply Ascii.eqb_eq. Qed.
Lemma same_blank s c : same_name blank s c <-> lower (remove_char " " (remove_char "_" s)) = lower c.
Proof. rewrite remove_two. apply same_name_lower. intros a. rewrite orb_true_iff, !Ascii.eqb_eq. reflexivity. Qed.
Lemma same_no_skip s c : same_name no_skip s c <-> lower s = lower c.
Proof. rewrite <- (remove_none s) at 2. apply same_name_lower. intros a. split; [discriminate|intros []]. Qed.

(** A directory without two names that agree. *)
Fixpoint distinct (l : list string) : bool :=
  match l with [] => true | a :: l' => negb (existsb (fun b => String.eqb (lower a) (lower b)) l') && distinct l' end.
Lemma distinct_unique l : distinct l = true -> forall a b, In a l -> In b l -> lower a = lower b -> a = b.
Proof.
  induction l as [|c l IH]; intros D a b Ia Ib E; [destruct Ia|]. cbn in D. apply andb_prop in D as (D1 & D2).
  apply negb_true_iff in D1.
  assert (X : forall d, In d l -> lower c = lower d -> False).
  { intros d Id Ed. assert (T : existsb (fun b => String.eqb (lower c) (lower b)) l = true).
    { apply existsb_exists. exists d. split; [exact Id|]. now apply String.eqb_eq. } congruence. }
  destruct Ia as [<-|Ia], Ib as [<-|Ib]; [reflexivity|destruct (X b Ib E)|destruct (X a Ia (eq_sym E))|now apply IH].
Qed.
Lemma getattr_some dir s c : distinct dir = true -> (getattr_ci dir s = Some c <-> In c dir /\ lower s = lower c).
Proof.
  intros D. unfold getattr_ci. split.
  - intros H. apply find_some in H as (I & E). apply String.eqb_eq in E. now split.
  - intros (I & E). destruct (find (fun a => String.eqb (lower a) (lower s)) dir) as [d|] eqn:F.
    + apply find_some in F as (I' & E'). apply String.eqb_eq in E'. f_equal.
      apply (distinct_unique dir D); [exact I'|exact I|congruence].
    + pose proof (find_none _ _ F c I) as N. cbv beta in N. apply String.eqb_neq in N. congruence.
Qed.
Lemma getattr_none dir s : getattr_ci dir s = None <-> forall c, In c dir -> lower s <> lower c.
Proof.
  unfold getattr_ci. split.
  - intros F c I E. pose proof (find_none _ _ F c I) as N. cbv beta in N. apply String.eqb_neq in N. congruence.
  - intros H. destruct (find (fun a => String.eqb (lower a) (lower s)) dir) as [d|] eqn:F; [|reflexivity].
    apply find_some in F as (I' & E'). apply String.eqb_eq in E'. destruct (H d I'). now symmetry.
Qed.

(** * Kernels *)

Lemma kernel_distinct : distinct kernel_dir = true.
Proof. reflexivity. Qed.
Theorem kernel_lookup_spec s c : kernel_lookup s = Ok c <-> In c kernel_dir /\ same_name underscore s c.
Proof.
  unfold kernel_lookup. rewrite same_underscore, <- (getattr_some _ _ _ kernel_distinct).
  destruct (getattr_ci kernel_dir (remove_char "_" s)) as [a|]; split; intros H; congruence.
Qed.
Lemma remove_char_no c s : forall d t, remove_char c s = String d t -> d <> c.
Proof.
  induction s as [|e s IH]; intros d t; cbn; [discriminate|]. destruct (Ascii.eqb_spec e c) as [->|N]; [apply IH|].
  intros H. injection H as -> _. exact N.
Qed.
Lemma base_kernel_unreachable s : ~ same_name underscore s "_BaseKernel".
Proof.
  rewrite same_underscore. destruct (remove_char "_" s) as [|d t] eqn:E; [discriminate|]. apply remove_char_no in E.
  cbn [lower]. intros H. injection H as H _.
  assert (S : same_letter d "_"%char) by (apply lower_char_same; rewrite H; reflexivity).
  apply same_letterb_spec in S. apply E. revert S.
  pose proof (all_bytes_spec (fun a => implb (same_letterb a "_"%char) (Ascii.eqb a "_"%char)) eq_refl d) as T.
  cbv beta in T. intros S. rewrite S in T. now apply Ascii.eqb_eq.
Qed.
Theorem kernel_factory_spec s c : public_kernel c ->
  (kernel_factory s = Ok c <-> same_name underscore s c \/ (c = "RBF" /\ same_name underscore s "factory")).
Proof.
  intros (Ic & Nb & Nf). unfold kernel_factory. split.
  - destruct (kernel_lookup s) as [a|] eqn:E; [|discriminate]. cbn [bind]. pose proof (proj1 (kernel_lookup_spec s a) E) as (I & S).
    destruct (String.eqb_spec a "factory") as [->|N].
    + intros H. vm_compute in H. injection H as <-. right. now split.
    + intros H. injection H as ->. now left.
  - intros [S|(-> & S)].
    + rewrite (proj2 (kernel_lookup_spec s c) (conj Ic S)). cbn [bind]. destruct (String.eqb_spec c "factory"); [contradiction|reflexivity].
    + assert (I : In "factory" kernel_dir) by (cbn; tauto). rewrite (proj2 (kernel_lookup_spec s _) (conj I S)). reflexivity.
Qed.
Theorem kernel_rejected s : (forall c, public_kernel c -> ~ same_name underscore s c) -> ~ same_name underscore s "factory" ->
  kernel_factory s = Err ENameError.
Proof.
  intros H Hf. unfold kernel_factory, kernel_lookup.
  destruct (getattr_ci kernel_dir (remove_char "_" s)) as [a|] eqn:E; [|reflexivity].
  apply (getattr_some _ _ _ kernel_distinct) in E as (I & E). apply same_underscore in E.
  destruct (String.eqb_spec a "_BaseKernel") as [->|Nb]; [now apply base_kernel_unreachable in E|].
  destruct (String.eqb_spec a "factory") as [->|Nf]; [contradiction|]. destruct (H a (conj I (conj Nb Nf)) E).
Qed.
Theorem kernel_result_public s c : kernel_factory s = Ok c -> public_kernel c.
Proof.
  unfold kernel_factory. destruct (kernel_lookup s) as [a|] eqn:E; [|discriminate]. cbn [bind].
  apply kernel_lookup_spec in E as (I & S). destruct (String.eqb_spec a "factory") as [->|N]; intros H.
  - vm_compute in H. injection H as <-. split; [cbn; tauto|split; discriminate].
  - injection H as ->. split; [exact I|]. split; [|exact N]. intros ->. now apply base_kernel_unreachable in S.
Qed.
Theorem documented_resolve s c : In (s, c) documented_names -> public_kernel c /\ kernel_factory s = Ok c.
Proof.
  intros I. assert (E : kernel_factory s = Ok c).
  { revert s c I.
    assert (F : Forall (fun p => kernel_factory (fst p) = Ok (snd p)) documented_names) by (repeat constructor).
    intros s c I. exact (proj1 (Forall_forall _ _) F _ I). }
  split; [now apply kernel_result_public in E|exact E].
Qed.
Theorem factory_name_accepted s : same_name underscore s "factory" -> kernel_factory s = Ok "RBF".
Proof. intros S. apply kernel_factory_spec; [split; [cbn; tauto|split; discriminate]|]. right. now split. Qed.

(** * Nystrom *)

Theorem nystrom_guard s : same_name no_skip s "Nystrom" -> nystrom_base s = Err EAssertionError.
Proof. intros H. apply same_no_skip in H. unfold nystrom_base. rewrite H. reflexivity. Qed.
Theorem nystrom_guard_misses s : same_name underscore s "Nystrom" -> ~ same_name no_skip s "Nystrom" -> nystrom_base s = Ok "Nystrom".
Proof.
  intros H N. unfold nystrom_base. destruct (String.eqb_spec (lower s) "nystrom") as [E|_].
  - destruct N. apply same_no_skip. exact E.
  - apply kernel_factory_spec; [split; [cbn; tauto|split; discriminate]|]. now left.
Qed.

(** * Other factories *)

Theorem level_spec s c : level_factory s = Ok c <-> In c ["KPCA"; "LSSVM"; "Ridge"] /\ same_name no_skip s c.
Proof.
  unfold level_factory. rewrite same_no_skip. split.
  - destruct (existsb _ _) eqn:E; [|discriminate]. destruct (getattr_ci single_view_dir s) as [a|] eqn:G; [|discriminate].
    intros H. injection H as ->. apply getattr_some in G as (I & L); [|reflexivity]. split; [|exact L].
    destruct I as [<-|[<-|[<-|[<-|[]]]]]; [cbn; tauto|cbn; tauto| |cbn; tauto].
    rewrite L in E. discriminate E.
  - intros (I & L).
    assert (G : getattr_ci single_view_dir s = Some c) by (apply getattr_some; [reflexivity|split; [cbn in I |- *; tauto|exact L]]).
    rewrite G. rewrite L. destruct I as [<-|[<-|[<-|[]]]]; reflexivity.
Qed.
Theorem level_rejected s : (forall c, In c ["KPCA"; "LSSVM"; "Ridge"] -> ~ same_name no_skip s c) -> level_factory s = Err ENameError.
Proof.
  intros H. destruct (level_factory s) as [c|e] eqn:E.
  - apply level_spec in E as (I & S). destruct (H c I S).
  - revert E. unfold level_factory. destruct (existsb _ _); [destruct (getattr_ci _ _); [discriminate|]|]; congruence.
Qed.
Theorem model_spec s c : model_factory s = Ok c <->
  (In c ["KPCA"; "LSSVM"; "Model"; "RKM"] /\ same_name no_skip s c) \/ (c = "RKM" /\ same_name no_skip s "factory").
Proof.
  unfold model_factory, model_lookup. rewrite !same_no_skip. split.
  - destruct (getattr_ci model_dir s) as [a|] eqn:G; [|discriminate]. cbn [bind].
    apply getattr_some in G as (I & L); [|reflexivity]. destruct (String.eqb_spec a "factory") as [->|N]; intros H.
    + vm_compute in H. injection H as <-. right. now split.
    + injection H as ->. left. split; [|exact L]. cbn in I |- *. destruct I as [I|[I|[I|[I|[I|[]]]]]]; [tauto..|congruence].
  - intros [(I & L)|(-> & L)].
    + assert (G : getattr_ci model_dir s = Some c) by (apply getattr_some; [reflexivity|split; [cbn in I |- *; tauto|exact L]]).
      rewrite G. cbn [bind]. destruct (String.eqb_spec c "factory") as [->|_]; [|reflexivity].
      cbn in I. destruct I as [I|[I|[I|[I|[]]]]]; discriminate I.
    + assert (G : getattr_ci model_dir s = Some "factory") by (apply getattr_some; [reflexivity|split; [cbn; tauto|exact L]]).
      rewrite G. reflexivity.
Qed.
Theorem data_spec s c : data_factory s = Ok c <->
  (In c ["Gaussians"; "Iris"; "PimaIndians"; "Spiral"; "TwoMoons"] /\ same_name blank s c) \/
  (c = "PimaIndians" /\ same_name blank s "Pima") \/ (c = "Gaussians" /\ same_name blank s "factory").
Proof.
  unfold data_factory, data_lookup. rewrite !same_blank. set (t := remove_char " " (remove_char "_" s)). cbv zeta.
  destruct (String.eqb_spec (lower t) "pima") as [P|P].
  - change (getattr_ci data_dir "pimaindians") with (Some "PimaIndians"). cbn [bind]. change (String.eqb "PimaIndians" "factory") with false.
    cbv iota. rewrite P. split.
    + intros H. injection H as <-. right. left. now split.
    + intros [(I & L)|[(-> & _)|(_ & L)]]; [|reflexivity|discriminate L].
      destruct I as [<-|[<-|[<-|[<-|[<-|[]]]]]]; discriminate L.
  - split.
    + destruct (getattr_ci data_dir t) as [a|] eqn:G; [|discriminate]. cbn [bind].
      apply getattr_some in G as (I & L); [|reflexivity]. destruct (String.eqb_spec a "factory") as [->|N]; intros H.
      * vm_compute in H. injection H as <-. right. right. now split.
      * injection H as ->. left. split; [|exact L]. cbn in I |- *. destruct I as [I|[I|[I|[I|[I|[I|[]]]]]]]; [tauto..|congruence].
    + intros [(I & L)|[(-> & L)|(-> & L)]].
      * assert (G : getattr_ci data_dir t = Some c) by (apply getattr_some; [reflexivity|split; [cbn in I |- *; tauto|exact L]]).
        rewrite G. cbn [bind]. destruct (String.eqb_spec c "factory") as [->|_]; [|reflexivity].
        cbn in I. destruct I as [I|[I|[I|[I|[I|[]]]]]]; discriminate I.
      * destruct (P L).
      * assert (G : getattr_ci data_dir t = Some "factory") by (apply getattr_some; [reflexivity|split; [cbn; tauto|exact L]]).
        rewrite G. reflexivity.
Qed.
Theorem watcher_never s : exists e, watcher_factory s = Err e.
Proof. unfold watcher_factory. destruct (String.eqb s "none"); eexists; reflexivity. Qed.

(** * Representations *)

Theorem forward_known {X V} (phi k : X -> result V) x :
  forward phi k x "primal" = bind (phi x) (fun v => Ok (Data v)) /\ forward phi k x "dual" = bind (k x) (fun v => Ok (Data v)).
Proof. now split. Qed.
Theorem forward_unknown {X V} (phi k : X -> result V) x rep : rep <> "primal" -> rep <> "dual" -> forward phi k x rep = Ok ErrorObject.
Proof.
  intros H1 H2. unfold forward. destruct (String.eqb_spec rep "primal"); [contradiction|].
  destruct (String.eqb_spec rep "dual"); [contradiction|reflexivity].
Qed.
