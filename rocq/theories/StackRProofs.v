(** Proofs about stacked random features over the reals. *)
From Verif Require Import Base RVec RVecProofs TransformR TransformRProofs RandomFeaturesR RandomFeaturesRSpec RandomFeaturesRProofs.
From Verif Require Import Stack StackSpec StackProofs StackR StackRSpec.
Open Scope R_scope.

Lemma means_length s : length (means s) = width s.
Proof. apply colwise_length. Qed.
Lemma spreads_length s : length (spreads s) = width s.
Proof.
  unfold spreads. rewrite colwise_length. unfold sub_rows. destruct s as [|r s]; [reflexivity|]. cbn [map width].
  rewrite zipw_length; [reflexivity|]. now rewrite means_length.
Qed.

Lemma shift_back : forall x m t, length x = length m -> length m = length t ->
  zipw Rplus (zipw (fun v t => v * clamp t) (zipw (fun v t => v / clamp t) (zipw Rminus x m) t) t) m = x.
Proof.
  induction x as [|a x IH]; intros [|b m] [|c t] H1 H2; try discriminate; [reflexivity|]. cbn [zipw]. f_equal.
  - pose proof (clamp_pos c). field. lra.
  - apply IH; cbn [length] in *; lia.
Qed.

Lemma standardise_undone s : undoes (standardise s) (destandardise s).
Proof.
  intros x y. unfold standardise, destandardise. destruct s as [|r [|r' s]]; try discriminate. set (S := r :: r' :: s).
  destruct (Nat.eqb (length x) (width S)) eqn:E; [|discriminate]. apply Nat.eqb_eq in E. intros H. injection H as <-.
  rewrite zipw_length by (rewrite zipw_length by (now rewrite means_length); now rewrite spreads_length).
  rewrite zipw_length by (now rewrite means_length). rewrite E, Nat.eqb_refl. apply (f_equal Ok).
  apply shift_back; [now rewrite means_length|now rewrite means_length, spreads_length].
Qed.
Lemma plain_undone s : undoes (plain s) (plain s).
Proof. intros x y H. unfold plain in *. now injection H as ->. Qed.

Lemma rect_width d w : rect d w -> w <> [] -> width w = d.
Proof. intros H. destruct w as [|r w]; intros N; [now destruct N|]. inversion H. assumption. Qed.

Lemma rfeat_ok d l x : suited d l -> length x = d -> exists y, rfeat l x = Ok y /\ length y = length (rw_w l) /\ rfeat_back l y = Ok x.
Proof.
  intros (Ha & Hn & Hr & Hp & Hc) Hx. unfold rfeat, rfeat_back. rewrite (rect_width d) by assumption. rewrite Hx, Nat.eqb_refl.
  destruct (preimage_exact (rw_act l) d (rw_w l) (rw_p l) 1 x Ha R1_neq_R0 Hn Hr Hp Hc Hx) as (y & E & F).
  exists y. rewrite E. split; [reflexivity|].
  assert (L : length y = length (rw_w l)). { rewrite rf_features_value in E by exact Ha. injection E as <-. now rewrite map_length. }
  split; [exact L|]. rewrite L, Nat.eqb_refl, F. reflexivity.
Qed.
Lemma rfeat_undone d l : suited d l -> undoes (rfeat l) (rfeat_back l).
Proof.
  intros H x y E. assert (Hx : length x = d).
  { unfold rfeat in E. destruct (Nat.eqb (length x) (width (rw_w l))) eqn:F; [|discriminate E]. apply Nat.eqb_eq in F.
    rewrite F. destruct H as (_ & Hn & Hr & _). now apply rect_width. }
  destruct (rfeat_ok d l x H Hx) as (y' & E' & _ & B). rewrite E in E'. injection E' as <-. exact B.
Qed.

(** After any history, what is found from the features of a point is the point. *)
Lemma step_weights_all (outer : mat -> vec -> result vec) ops : forall st st' rs,
  run outer standardise rfeat st ops = (st', rs) -> map l_weights (k_layers st') = map l_weights (k_layers st).
Proof.
  induction ops as [|o ops IH]; intros st st' rs R; cbn [run] in R.
  - now injection R as <- _.
  - pose proof (step_weights outer standardise rfeat st o) as SW. destruct (step outer standardise rfeat st o) as [sa ra].
    destruct (run outer standardise rfeat sa ops) as [sb rb] eqn:Er. injection R as <- _. cbn [fst] in SW. now rewrite (IH _ _ _ Er).
Qed.
Theorem stack_recovers (outer outer_back : mat -> vec -> result vec) :
  (forall c, undoes (outer c) (outer_back c)) ->
  forall ws s idx st0 ops st rs x y,
  (forall l, In l ws -> exists d, suited d l) ->
  construct outer standardise rfeat ws (Some s) idx = Ok st0 -> run outer standardise rfeat st0 ops = (st, rs) ->
  phi outer standardise rfeat st x = Ok y -> preimage outer_back destandardise rfeat_back st y = Ok x.
Proof.
  intros Ho ws s idx st0 ops st rs x y Hw H0 H E.
  assert (W0 : map l_weights (k_layers st) = ws).
  { rewrite (step_weights_all outer ops _ _ _ H). destruct (construct_good _ _ _ _ _ _ _ H0) as (G & _). rewrite G. apply chain_weights. }
  apply (stack_preimage outer standardise outer_back destandardise rfeat rfeat_back st x y); [intros c _; apply Ho| |exact E].
  intros l I. split; [apply standardise_undone|].
  destruct (Hw (l_weights l)) as (d & Hd); [rewrite <- W0; now apply in_map|]. now apply (rfeat_undone d).
Qed.

(** A stack can be made, and gives features to every point. *)
Lemma rows_total (f : vec -> result vec) (A B : vec -> Prop) : (forall p, A p -> exists q, f p = Ok q /\ B q) ->
  forall l, Forall A l -> exists qs, rows f l = Ok qs /\ Forall B qs /\ length qs = length l.
Proof.
  intros Hf l H. induction H as [|p l Hp _ IH].
  - exists []. now repeat split.
  - destruct (Hf p Hp) as (q & E & Bq). destruct IH as (qs & E' & F & L). exists (q :: qs). cbn [rows]. rewrite E. cbn [bind]. rewrite E'. cbn [bind].
    repeat split; [now constructor|cbn; now f_equal].
Qed.
Lemma standardise_ok d s x : (2 <= length s)%nat -> rect d s -> length x = d -> exists y, standardise s x = Ok y /\ length y = d.
Proof.
  intros Hs Hr Hx. assert (Hw : width s = d) by (apply rect_width; [exact Hr|destruct s; [cbn in Hs; lia|discriminate]]).
  destruct s as [|r [|r' s]]; try (cbn in Hs; lia). set (S := r :: r' :: s) in *.
  exists (zipw (fun v t => v / clamp t) (zipw Rminus x (means S)) (spreads S)). split.
  - unfold standardise, S at 1. change (r :: r' :: s) with S. now rewrite Hx, Hw, Nat.eqb_refl.
  - rewrite zipw_length; rewrite zipw_length; try (rewrite ?means_length, ?spreads_length; congruence).
Qed.
Lemma layer_ok d l s : (2 <= length s)%nat -> rect d s -> suited d l -> forall x, length x = d ->
  exists y, layer_phi standardise rfeat (Layer l s) x = Ok y /\ length y = length (rw_w l).
Proof.
  intros Hs Hr Hl x Hx. unfold layer_phi. cbn [l_sample l_weights]. destruct (standardise_ok d s x Hs Hr Hx) as (z & -> & Lz). cbn [bind].
  destruct (rfeat_ok d l z Hl Lz) as (y & E & L & _). now exists y.
Qed.

Lemma select_all (s : mat) : select s (seq 0 (length s)) = Ok s.
Proof.
  assert (G : forall pre t : mat, select (pre ++ t) (seq (length pre) (length t)) = Ok t).
  { intros pre t. revert pre. induction t as [|p t IH]; intros pre; [reflexivity|]. cbn [length seq select].
    rewrite nth_error_app2 by lia. rewrite Nat.sub_diag. cbn [nth_error]. specialize (IH (pre ++ [p])).
    rewrite <- app_assoc, app_length in IH. cbn [app length] in IH. rewrite Nat.add_1_r in IH. rewrite IH. reflexivity. }
  exact (G [] s).
Qed.

Lemma layers_ok (outer : mat -> vec -> result vec) s idx : forall ws pre b d,
  (2 <= length b)%nat -> rect d b -> fits d ws ->
  (match rev pre with [] => projected outer (Stack s idx pre) | l :: _ => rows (layer_phi standardise rfeat l) (l_sample l) end) = Ok b ->
  exists ls, fold_left (append outer standardise rfeat) ws (Ok (Stack s idx pre)) = Ok (Stack s idx (pre ++ ls)) /\
    forall x, length x = d -> exists y, fold_left (fun r l => bind r (layer_phi standardise rfeat l)) ls (Ok x) = Ok y.
Proof.
  induction ws as [|w ws IH]; intros pre b d Hb Hr Hf Hp.
  - exists []. rewrite app_nil_r. split; [reflexivity|]. intros x _. now exists x.
  - destruct Hf as (Hw & Hf). pose proof (layer_ok d w b Hb Hr Hw) as L.
    destruct (rows_total (layer_phi standardise rfeat (Layer w b)) (fun x => length x = d) (fun y => length y = length (rw_w w)) L b Hr)
      as (b' & Eb & Rb & Lb).
    destruct (IH (pre ++ [Layer w b]) b' (length (rw_w w))) as (ls & E & F); [now rewrite Lb|exact Rb|exact Hf| |].
    { rewrite rev_app_distr. cbn [rev app l_sample]. exact Eb. }
    exists (Layer w b :: ls). split.
    + cbn [fold_left].
      assert (A : append outer standardise rfeat (Ok (Stack s idx pre)) w = Ok (Stack s idx (pre ++ [Layer w b]))).
      { unfold append. cbn [bind k_layers k_sample k_idx]. destruct (rev pre); rewrite Hp; reflexivity. }
      rewrite A, E, <- app_assoc. reflexivity.
    + intros x Hx. cbn [fold_left bind]. destruct (L x Hx) as (y & -> & Ly). now apply F.
Qed.

Theorem stack_defined (outer : mat -> vec -> result vec) :
  (forall c x d, (2 <= length c)%nat -> rect d c -> length x = d -> exists z, outer c x = Ok z /\ length z = d) ->
  forall d ws s, (2 <= length s)%nat -> rect d s -> fits d ws ->
  exists st, construct outer standardise rfeat ws (Some s) None = Ok st /\
  forall x, length x = d -> exists y, phi outer standardise rfeat st x = Ok y.
Proof.
  intros Ho d ws s Hs Hr Hf.
  assert (C : forall ls, @current vec rweights (Stack s (all_idx s) ls) = Ok s).
  { intros ls. unfold current. cbn [k_sample k_idx]. destruct s as [|p s']; [cbn in Hs; lia|]. apply select_all. }
  destruct (rows_total (outer s) (fun x => length x = d) (fun y => length y = d) (fun p => Ho s p d Hs Hr) s Hr) as (b & Eb & Rb & Lb).
  assert (Pj : forall ls, @projected vec rweights outer (Stack s (all_idx s) ls) = Ok b).
  { intros ls. unfold projected. rewrite C. exact Eb. }
  destruct (layers_ok outer s (all_idx s) ws [] b d) as (ls & E & F); [now rewrite Lb|exact Rb|exact Hf|exact (Pj [])|].
  exists (Stack s (all_idx s) ls). split.
  - unfold construct, init_sample. cbn [k_layers idx_or]. rewrite (Pj []). cbn [refit bind]. exact E.
  - intros x Hx. unfold phi. rewrite C. cbn [bind]. destruct (Ho s x d Hs Hr Hx) as (z & -> & Lz). cbn [bind]. unfold explicit. cbn [k_layers]. now apply F.
Qed.
