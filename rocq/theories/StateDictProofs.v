(** Proofs about checkpoints. *)
From Verif Require Import Base StateDict StateDictSpec.
Open Scope nat_scope.
Open Scope string_scope.
Open Scope list_scope.

Section P.
Context {T : Type} (same_shape : T -> T -> bool).
Notation obj := (obj T).
Notation saved := (saved T).

Lemma path_eqb_eq : forall a b, path_eqb a b = true <-> a = b.
Proof.
  induction a as [|x a IH]; intros [|y b]; cbn [path_eqb]; split; intros H; try discriminate H; try reflexivity.
  - apply andb_true_iff in H. destruct H as [E H]. apply String.eqb_eq in E. apply IH in H. congruence.
  - injection H as -> H. apply andb_true_iff. split; [apply String.eqb_refl | apply IH; exact H].
Qed.
Lemma keys_nonempty : forall (o : obj) k v, In (k, v) (state_dict o) -> k <> [].
Proof.
  intros [ps ss os] k v H. cbn [state_dict] in H. apply in_app_iff in H. destruct H as [H|H].
  - apply in_map_iff in H. destruct H as [p [E _]]. injection E as <- _. discriminate.
  - apply in_flat_map in H. destruct H as [s [_ H]]. apply in_map_iff in H. destruct H as [x [E _]]. injection E as <- _. discriminate.
Qed.
Lemma lookup_app : forall (a b : saved) k, lookup (a ++ b) k = match lookup a k with Some v => Some v | None => lookup b k end.
Proof.
  induction a as [|[k' v] a IH]; intros b k; [reflexivity|]. cbn [lookup app]. destruct (path_eqb k' k); [reflexivity | apply IH].
Qed.
Lemma lookup_none : forall (d : saved) k, (forall v, ~ In (k, v) d) -> lookup d k = None.
Proof.
  induction d as [|[k' v] d IH]; intros k H; [reflexivity|]. cbn [lookup].
  destruct (path_eqb k' k) eqn:E.
  - apply path_eqb_eq in E. subst k'. exfalso. apply (H v). left. reflexivity.
  - apply IH. intros w I. apply (H w). right. exact I.
Qed.
Lemma lookup_in : forall (d : saved) k v, NoDup (map fst d) -> In (k, v) d -> lookup d k = Some v.
Proof.
  induction d as [|[k' w] d IH]; intros k v N I; [contradiction|]. cbn [map fst] in N. inversion N as [|a b Na Nb]. subst a b.
  cbn [lookup]. destruct I as [I|I].
  - injection I as -> ->. rewrite (proj2 (path_eqb_eq k k) eq_refl). reflexivity.
  - destruct (path_eqb k' k) eqn:E.
    + apply path_eqb_eq in E. subst k'. exfalso. apply Na. apply (in_map fst) in I. exact I.
    + apply IH; assumption.
Qed.
Lemma lookup_some : forall (d : saved) k v, lookup d k = Some v -> In (k, v) d.
Proof.
  induction d as [|[k' w] d IH]; intros k v H; [discriminate H|]. cbn [lookup] in H.
  destruct (path_eqb k' k) eqn:E; [|right; apply IH; exact H].
  apply path_eqb_eq in E. subst k'. injection H as ->. left. reflexivity.
Qed.
Lemma below_app : forall n (a b : saved), below n (a ++ b) = below n a ++ below n b.
Proof.
  intros n a b. induction a as [|[k v] a IH]; [reflexivity|]. cbn [app below].
  destruct k as [|m [|x k]]; [exact IH | exact IH|]. destruct (String.eqb m n); [cbn [app]; rewrite IH; reflexivity | exact IH].
Qed.
Lemma below_params : forall n (ps : list (string * T)), below n (map (fun p => ([fst p], snd p)) ps) = [].
Proof. intros n ps. induction ps as [|p ps IH]; [reflexivity | exact IH]. Qed.
Lemma below_prefixed : forall n m (d : saved), (forall k v, In (k, v) d -> k <> []) ->
  below n (map (fun kv => (m :: fst kv, snd kv)) d) = if String.eqb m n then d else [].
Proof.
  intros n m d. induction d as [|[k v] d IH]; intros H; [destruct (String.eqb m n); reflexivity|].
  cbn [map fst snd below]. destruct k as [|x k]; [exfalso; apply (H [] v); [left; reflexivity | reflexivity]|].
  rewrite IH by (intros k' v' I; apply (H k' v'); right; exact I).
  destruct (String.eqb m n); reflexivity.
Qed.
Lemma below_subs : forall n (ss : list (string * obj)) o, NoDup (map fst ss) -> In (n, o) ss ->
  below n (flat_map (fun s => map (fun kv => (fst s :: fst kv, snd kv)) (state_dict (snd s))) ss) = state_dict o.
Proof.
  assert (A : forall n (ss : list (string * obj)), ~ In n (map fst ss) ->
    below n (flat_map (fun s => map (fun kv => (fst s :: fst kv, snd kv)) (state_dict (snd s))) ss) = []).
  { intros n ss. induction ss as [|[m o] ss IH]; intros H; [reflexivity|]. cbn [flat_map map fst snd In] in *.
    rewrite below_app, below_prefixed by (intros k v; apply keys_nonempty).
    destruct (String.eqb_spec m n) as [->|D]; [exfalso; apply H; left; reflexivity|].
    apply IH. intros I. apply H. right. exact I. }
  intros n ss o N I. induction ss as [|[m q] ss IH]; [contradiction|]. cbn [map fst] in N. inversion N as [|a b Na Nb]. subst a b.
  cbn [flat_map fst snd]. rewrite below_app, below_prefixed by (intros k v; apply keys_nonempty).
  destruct I as [I|I].
  - injection I as -> ->. rewrite String.eqb_refl, A by exact Na. apply app_nil_r.
  - destruct (String.eqb_spec m n) as [->|D].
    + exfalso. apply Na. apply (in_map fst) in I. exact I.
    + apply IH; assumption.
Qed.
Lemma below_state : forall n ps ss os (o : obj), NoDup (map fst ss) -> In (n, o) ss ->
  below n (state_dict (Obj ps ss os)) = state_dict o.
Proof.
  intros n ps ss os o N I. cbn [state_dict]. rewrite below_app, below_params. cbn [app]. apply below_subs; assumption.
Qed.
Lemma lookup_state : forall n ps ss os (v : T), NoDup (map fst ps) -> In (n, v) ps ->
  lookup (state_dict (Obj ps ss os)) [n] = Some v.
Proof.
  intros n ps ss os v N I. cbn [state_dict]. rewrite lookup_app.
  replace (lookup (map (fun p => ([fst p], snd p)) ps) [n]) with (Some v); [reflexivity|]. symmetry.
  induction ps as [|[m w] ps IH]; [contradiction|]. cbn [map fst] in N. inversion N as [|a b Na Nb]. subst a b.
  cbn [map fst snd lookup path_eqb]. rewrite andb_true_r. destruct I as [I|I].
  - injection I as -> ->. rewrite String.eqb_refl. reflexivity.
  - destruct (String.eqb_spec m n) as [->|D]; [|apply IH; assumption].
    exfalso. apply Na. apply (in_map fst) in I. exact I.
Qed.

Lemma forall2_in_r : forall {A B} (P : A -> B -> Prop) l l' b, Forall2 P l l' -> In b l' -> exists a, In a l /\ P a b.
Proof.
  intros A B P l l' b F. induction F as [|x y l l' Pxy F IH]; intros I; [contradiction|].
  destruct I as [<-|I]; [exists x; split; [left; reflexivity | exact Pxy]|].
  destruct (IH I) as [a [Ia Pa]]. exists a. split; [right; exact Ia | exact Pa].
Qed.

(** *** Saving and loading *)
Lemma restore_params : forall ss os (ps' ps : list (string * T)), NoDup (map fst ps) ->
  Forall2 (fun a b => fst a = fst b /\ same_shape (snd b) (snd a) = true) ps ps' ->
  map (load_param same_shape (state_dict (Obj ps ss os))) ps' = ps.
Proof.
  intros ss os ps' ps N F.
  assert (G : forall q q', Forall2 (fun a b => fst a = fst b /\ same_shape (snd b) (snd a) = true) q q' ->
    (forall x, In x q -> In x ps) -> map (load_param same_shape (state_dict (Obj ps ss os))) q' = q).
  { intros q q' F'. induction F' as [|[n v] [m w] q q' [E S] F' IH]; intros I; [reflexivity|].
    cbn [fst snd] in E, S. subst m. cbn [map]. f_equal; [|apply IH; intros x Ix; apply I; right; exact Ix].
    unfold load_param. cbn [fst snd]. rewrite (lookup_state n ps ss os v N (I _ (or_introl eq_refl))).
    rewrite S. reflexivity. }
  apply G; [exact F | auto].
Qed.

Fixpoint restore_state (o' : obj) {struct o'} : forall o, well_named o -> same_layout same_shape o o' ->
  state_dict (restore same_shape (state_dict o) o') = state_dict o /\ restored o o' (restore same_shape (state_dict o) o').
Proof.
  destruct o' as [ps' ss' os']. intros o W L.
  inversion L as [ps ss os a b c FP FS E1 E2]. subst a b c o.
  assert (NP : NoDup (map fst ps)) by (inversion W; assumption).
  assert (NS : NoDup (map fst ss)) by (inversion W; assumption).
  assert (WS : Forall (fun s => well_named (snd s)) ss) by (inversion W; assumption).
  cbn [restore]. rewrite (restore_params ss os ps' ps NP FP).
  assert (G : forall q q', Forall2 (fun a b => fst a = fst b /\ same_layout same_shape (snd a) (snd b)) q q' ->
     (forall s', In s' q' -> forall o, well_named o -> same_layout same_shape o (snd s') ->
        state_dict (restore same_shape (state_dict o) (snd s')) = state_dict o /\
        restored o (snd s') (restore same_shape (state_dict o) (snd s'))) ->
     (forall s, In s q -> In s ss) ->
     let q'' := map (fun s => (fst s, restore same_shape (below (fst s) (state_dict (Obj ps ss os))) (snd s))) q' in
     flat_map (fun s => map (fun kv => (fst s :: fst kv, snd kv)) (state_dict (snd s))) q'' =
     flat_map (fun s => map (fun kv => (fst s :: fst kv, snd kv)) (state_dict (snd s))) q /\
     Forall2 (fun a b => fst a = fst b) q q'').
  { intros q q' F. induction F as [|[n o] [m o'] q q' [E S] F IH]; intros H I; [split; [reflexivity | constructor]|].
    cbn [fst snd] in E, S. subst m. cbv zeta.
    destruct IH as [IH1 IH2]; [intros s' Is'; apply H; right; exact Is' | intros s Is; apply I; right; exact Is|].
    cbv zeta in IH1, IH2. cbn [map flat_map fst snd].
    pose proof (below_state n ps ss os o NS (I _ (or_introl eq_refl))) as B. rewrite B.
    assert (Wo : well_named o) by (exact (proj1 (Forall_forall _ _) WS _ (I _ (or_introl eq_refl)))).
    destruct (H (n, o') (or_introl eq_refl) o Wo S) as [R1 R2]. cbn [snd] in R1.
    split; [rewrite R1, IH1; reflexivity|]. constructor; [reflexivity | exact IH2]. }
  assert (H : forall s', In s' ss' -> forall o, well_named o -> same_layout same_shape o (snd s') ->
        state_dict (restore same_shape (state_dict o) (snd s')) = state_dict o /\
        restored o (snd s') (restore same_shape (state_dict o) (snd s'))).
  { clear -restore_state. revert ss'. fix IH 1. intros [|[n o'] ss'] s' I; [contradiction|].
    destruct I as [<-|I]; [cbn [snd]; apply restore_state | exact (IH ss' s' I)]. }
  destruct (G ss ss' FS H (fun s Is => Is)) as [G1 G2]. cbv zeta in G1, G2.
  split; [cbn [state_dict] in *; rewrite G1; reflexivity|].
  constructor; [exact G2|].
  intros n o o' o'' Io Io' Io''.
  apply in_map_iff in Io''. destruct Io'' as [[m q'] [E Iq]]. cbn [fst snd] in E. injection E as -> <-.
  assert (NS' : NoDup (map fst ss')).
  { clear -FS NS. assert (E : map fst ss = map fst ss').
    { induction FS as [|x y l l' [Pxy _] F IH]; [reflexivity|]. cbn [map]. cbn [map] in NS. inversion NS. rewrite Pxy, IH by assumption. reflexivity. }
    rewrite <- E. exact NS. }
  assert (U : forall (l : list (string * obj)) n x y, NoDup (map fst l) -> In (n, x) l -> In (n, y) l -> x = y).
  { clear. intros l n x y N. induction l as [|[m z] l IH]; intros A B; [contradiction|].
    cbn [map fst] in N. inversion N as [|a b Na Nb]. subst a b.
    destruct A as [A|A], B as [B|B].
    - injection A as _ <-. injection B as _ <-. reflexivity.
    - injection A as -> _. exfalso. apply Na. apply (in_map fst) in B. exact B.
    - injection B as -> _. exfalso. apply Na. apply (in_map fst) in A. exact A.
    - exact (IH Nb A B). }
  rewrite (U ss' n q' o' NS' Iq Io'). match goal with |- context [below n ?d] => change d with (state_dict (Obj ps ss os)) end. rewrite (below_state n ps ss os o NS Io).
  destruct (forall2_in_r _ ss ss' (n, o') FS Io') as [[m p] [Ip [Em Lm]]]. cbn [fst snd] in Em, Lm. subst m.
  rewrite (U ss n p o NS Ip Io) in Lm.
  exact (proj2 (H (n, o') Io' o (proj1 (Forall_forall _ _) WS (n, o) Io) Lm)).
Qed.

Fixpoint layout_keys (o' : obj) {struct o'} : forall o, same_layout same_shape o o' ->
  Forall2 (fun a b => fst a = fst b /\ same_shape (snd b) (snd a) = true) (state_dict o) (state_dict o').
Proof.
  destruct o' as [ps' ss' os']. intros o L.
  inversion L as [ps ss os a b c FP FS E1 E2]. subst a b c o. cbn [state_dict]. apply Forall2_app.
  - clear -FP. induction FP as [|x y l l' [E S] F IH]; [constructor|]. cbn [map]. constructor; [|exact IH].
    cbn [fst snd]. rewrite E. split; [reflexivity | exact S].
  - clear -layout_keys FS. revert ss FS. induction ss' as [|[m o'] ss' IH]; intros ss FS; inversion FS as [|[n o] y l l' [E S] F]; [constructor|].
    subst. cbn [fst snd] in E, S. subst m. cbn [flat_map fst snd]. apply Forall2_app; [|apply IH; exact F].
    pose proof (layout_keys o' o S) as K. clear -K.
    induction K as [|x y l l' [E S] F IH]; [constructor|]. cbn [map]. constructor; [|exact IH].
    cbn [fst snd]. split; [exact (f_equal (cons n) E) | exact S].
Qed.
Lemma nodup_app : forall {A} (a b : list A), NoDup a -> NoDup b -> (forall x, In x a -> ~ In x b) -> NoDup (a ++ b).
Proof.
  intros A a b NA NB D. induction NA as [|x a X NA IH]; [exact NB|]. cbn [app]. constructor.
  - rewrite in_app_iff. intros [I|I]; [exact (X I) | exact (D x (or_introl eq_refl) I)].
  - apply IH. intros y I. apply D. right. exact I.
Qed.
Fixpoint keys_nodup (o : obj) {struct o} : well_named o -> NoDup (map fst (state_dict o)).
Proof.
  destruct o as [ps ss os]. intros W.
  assert (NP : NoDup (map fst ps)) by (inversion W; assumption).
  assert (NS : NoDup (map fst ss)) by (inversion W; assumption).
  assert (WS : Forall (fun s => well_named (snd s)) ss) by (inversion W; assumption). clear W.
  cbn [state_dict]. rewrite map_app.
  assert (A : NoDup (map fst (map (fun p : string * T => ([fst p], snd p)) ps))).
  { rewrite map_map. cbn [fst]. clear -NP. induction ps as [|[n v] ps IH]; [constructor|].
    cbn [map fst] in *. inversion NP as [|a b Na Nb]. subst a b. constructor; [|exact (IH Nb)].
    intros I. apply in_map_iff in I. destruct I as [[m w] [E I]]. injection E as ->. apply Na. apply (in_map fst) in I. exact I. }
  assert (B : NoDup (map fst (flat_map (fun s : string * obj => map (fun kv => (fst s :: fst kv, snd kv)) (state_dict (snd s))) ss))).
  { clear -keys_nodup NS WS. induction ss as [|[n o] ss IH]; [constructor|].
    cbn [map fst] in NS. inversion NS as [|a b Na Nb]. subst a b.
    inversion WS as [|a b Wa Wb]. subst a b. cbn [snd] in Wa.
    cbn [flat_map fst snd]. rewrite map_app.
    assert (X : NoDup (map fst (map (fun kv : list string * T => (n :: fst kv, snd kv)) (state_dict o)))).
    { pose proof (keys_nodup o Wa) as K. rewrite map_map. cbn [fst].
      clear -K. induction (state_dict o) as [|[k v] l IH]; [constructor|]. cbn [map fst] in *.
      inversion K as [|a b Ka Kb]. subst a b. constructor; [|exact (IH Kb)].
      intros I. apply in_map_iff in I. destruct I as [[k' w] [E I]]. injection E as ->. apply Ka. apply (in_map fst) in I. exact I. }
    specialize (IH Nb Wb). clear -X IH Na.
    induction (state_dict o) as [|[k v] l IHl]; [exact IH|]. cbn [map fst snd app] in *.
    inversion X as [|a b Xa Xb]. subst a b. constructor; [|exact (IHl Xb)].
    rewrite in_app_iff. intros [I|I]; [exact (Xa I)|].
    apply in_map_iff in I. destruct I as [[k' w] [E I]]. cbn [fst] in E. subst k'.
    apply in_flat_map in I. destruct I as [[m p] [Im Ip]]. apply in_map_iff in Ip. destruct Ip as [[k2 w2] [E2 _]]. cbn [fst snd] in E2.
    injection E2 as -> _ _. apply Na. apply (in_map fst) in Im. exact Im. }
  assert (C : forall k, In k (map fst (map (fun p : string * T => ([fst p], snd p)) ps)) ->
     ~ In k (map fst (flat_map (fun s : string * obj => map (fun kv => (fst s :: fst kv, snd kv)) (state_dict (snd s))) ss))).
  { intros k I J. rewrite map_map in I. apply in_map_iff in I. destruct I as [p [E _]]. cbn [fst] in E. subst k.
    apply in_map_iff in J. destruct J as [[k w] [E J]]. cbn [fst] in E. subst k.
    apply in_flat_map in J. destruct J as [[m q] [_ J]]. apply in_map_iff in J. destruct J as [[k2 w2] [E2 J]]. cbn [fst snd] in E2.
    injection E2 as _ -> _. exact (keys_nonempty q [] w2 J eq_refl). }
  exact (nodup_app _ _ A B C).
Qed.

Lemma save_load : forall o o', well_named o -> same_layout same_shape o o' ->
  exists o'', load same_shape (state_dict o) o' = (Ok tt, o'') /\ state_dict o'' = state_dict o /\ restored o o' o''.
Proof.
  intros o o' W L. destruct (restore_state o' o W L) as [R1 R2].
  exists (restore same_shape (state_dict o) o'). split; [|split; assumption].
  unfold load. replace (accepts same_shape (state_dict o) o') with true; [reflexivity|]. symmetry.
  pose proof (layout_keys o' o L) as K. pose proof (keys_nodup o W) as N.
  unfold accepts. apply andb_true_iff. split; apply forallb_forall; intros [k v] I; cbn [fst snd].
  - destruct (forall2_in_r _ _ _ _ K I) as [[k' w] [J [E S]]]. cbn [fst snd] in E, S. subst k'.
    rewrite (lookup_in _ k w N J). exact S.
  - assert (E : map fst (state_dict o) = map fst (state_dict o')).
    { clear -K. induction K as [|x y l l' [E _] F IH]; [reflexivity|]. cbn [map]. rewrite E, IH. reflexivity. }
    destruct (lookup (state_dict o') k) as [w|] eqn:Q; [reflexivity|].
    apply (in_map fst) in I. cbn [fst] in I. rewrite E in I. apply in_map_iff in I. destruct I as [[k' w] [E' I]]. cbn [fst] in E'. subst k'.
    rewrite E in N. rewrite (lookup_in _ k w N I) in Q. discriminate Q.
Qed.

(** A parameter of another shape makes loading fail. *)
Lemma load_shape : forall (o o' : obj) k v w, NoDup (map fst (state_dict o)) ->
  In (k, v) (state_dict o) -> In (k, w) (state_dict o') -> same_shape w v = false ->
  fst (load same_shape (state_dict o) o') = Err ERuntimeError.
Proof.
  intros o o' k v w N I J S. unfold load. cbn [fst].
  replace (accepts same_shape (state_dict o) o') with false; [reflexivity|]. symmetry.
  unfold accepts. apply andb_false_iff. left.
  destruct (forallb _ _) eqn:F; [|reflexivity]. exfalso.
  rewrite forallb_forall in F. specialize (F (k, w) J). cbn [fst snd] in F.
  rewrite (lookup_in _ k v N I) in F. rewrite S in F. discriminate F.
Qed.

(** *** A model *)
Lemma model_saved : forall levels : list obj, state_dict (model_object levels) = [].
Proof. reflexivity. Qed.
Lemma model_loaded : forall levels levels' : list obj,
  load same_shape (state_dict (model_object levels)) (model_object levels') = (Ok tt, model_object levels').
Proof. reflexivity. Qed.
End P.
