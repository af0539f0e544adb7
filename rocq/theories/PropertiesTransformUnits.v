(** Property theorem C169: standardised and rescaled data do not depend on the units of measure. *)
From Verif Require Import Base Cache CacheSpec Beautify TransformTree TransformSpec RVec RVecProofs TransformR
  TransformRSpec TransformRTree TransformRExamples TransformUnitsSpec TransformUnitsProofs.
Open Scope R_scope.

(** Two transform trees over the same observations in different units, in any states:
    the same observations, of the sample or not, become the same numbers. *)
Theorem C169_standardize :
  forall (D D' : Type) (feat : D -> mat) (kmat : D -> D -> mat) (sample : D)
    (feat' : D' -> mat) (kmat' : D' -> D' -> mat) (sample' : D') (d : nat) (a b : nat -> R),
    rect d (feat sample) -> rect d (feat' sample') -> (forall j, (j < d)%nat -> 0 < a j) ->
    other_units d a b (feat sample) (feat' sample') ->
    let num := explicit_numerics feat kmat sample in let num' := explicit_numerics feat' kmat' sample' in
    forall (s : tstate val D) (s' : tstate val D') (x x' : option nat),
    reached num true s -> reached num' true s' ->
    rect d (feat (object sample s x)) -> rect d (feat' (object sample' s' x')) ->
    other_units d a b (feat (object sample s x)) (feat' (object sample' s' x')) ->
    (2 <= length (feat sample))%nat ->
    (forall j, (j < d)%nat -> EPS <= std (column j (feat sample)) /\ EPS <= a j * std (column j (feat sample))) ->
    exists o t t', apply num true x None (Some [RName "standardize"]) s = (Ok (VMat o), t) /\
      apply num' true x' None (Some [RName "standardize"]) s' = (Ok (VMat o), t').
Proof. exact @standardize_units. Qed.
Print Assumptions C169_standardize.

Theorem C169_rescale :
  forall (D D' : Type) (feat : D -> mat) (kmat : D -> D -> mat) (sample : D)
    (feat' : D' -> mat) (kmat' : D' -> D' -> mat) (sample' : D') (d : nat) (a b : nat -> R),
    rect d (feat sample) -> rect d (feat' sample') -> (forall j, (j < d)%nat -> 0 < a j) ->
    other_units d a b (feat sample) (feat' sample') ->
    let num := explicit_numerics feat kmat sample in let num' := explicit_numerics feat' kmat' sample' in
    forall (s : tstate val D) (s' : tstate val D') (x x' : option nat),
    reached num true s -> reached num' true s' ->
    rect d (feat (object sample s x)) -> rect d (feat' (object sample' s' x')) ->
    other_units d a b (feat (object sample s x)) (feat' (object sample' s' x')) ->
    (1 <= length (feat sample))%nat ->
    (forall j, (j < d)%nat -> let spread := lmax (column j (feat sample)) - lmin (column j (feat sample)) in
       EPS <= spread /\ EPS <= a j * spread) ->
    exists o t t', apply num true x None (Some [RName "minmax_rescaling"]) s = (Ok (VMat o), t) /\
      apply num' true x' None (Some [RName "minmax_rescaling"]) s' = (Ok (VMat o), t').
Proof. exact @rescaling_units. Qed.
Print Assumptions C169_rescale.

(** The threshold is what the condition on the spread is about: without it, the exact
    factor between the two results. *)
Theorem C169_threshold :
  forall (D D' : Type) (feat : D -> mat) (kmat : D -> D -> mat) (sample : D)
    (feat' : D' -> mat) (kmat' : D' -> D' -> mat) (sample' : D') (d : nat) (a b : nat -> R),
    rect d (feat sample) -> rect d (feat' sample') -> (forall j, (j < d)%nat -> 0 < a j) ->
    other_units d a b (feat sample) (feat' sample') ->
    let num := explicit_numerics feat kmat sample in let num' := explicit_numerics feat' kmat' sample' in
    forall (s : tstate val D) (s' : tstate val D') (x x' : option nat),
    reached num true s -> reached num' true s' ->
    rect d (feat (object sample s x)) -> rect d (feat' (object sample' s' x')) ->
    other_units d a b (feat (object sample s x)) (feat' (object sample' s' x')) ->
    (2 <= length (feat sample))%nat ->
    exists o o' t t', apply num true x None (Some [RName "standardize"]) s = (Ok (VMat o), t) /\
      apply num' true x' None (Some [RName "standardize"]) s' = (Ok (VMat o'), t') /\
      rect d o /\ rect d o' /\ length o = length o' /\
      forall j, (j < d)%nat -> let spread := std (column j (feat sample)) in
        column j o' = map (fun v => a j * Rmax spread EPS / Rmax (a j * spread) EPS * v) (column j o).
Proof. exact @standardize_factor. Qed.
Print Assumptions C169_threshold.

(** Data that have been standardised with their sample stay as they are when they are
    standardised again. *)
Theorem C169_standardize_twice :
  forall (D D' : Type) (feat : D -> mat) (kmat : D -> D -> mat) (sample : D)
    (feat' : D' -> mat) (kmat' : D' -> D' -> mat) (sample' : D') (d : nat) (s : tstate val D) (s' : tstate val D'),
    rect d (feat sample) ->
    let num := explicit_numerics feat kmat sample in let num' := explicit_numerics feat' kmat' sample' in
    reached num true s -> reached num' true s' ->
    forall t, (2 <= length (feat sample))%nat ->
    (forall j, (j < d)%nat -> EPS <= std (column j (feat sample))) ->
    apply num true None None (Some [RName "standardize"]) s = (Ok (VMat (feat' sample')), t) ->
    forall x, rect d (feat' (object sample' s' x)) ->
    exists t', apply num' true x None (Some [RName "standardize"]) s' = (Ok (VMat (feat' (object sample' s' x))), t').
Proof. exact @standardize_again. Qed.
Print Assumptions C169_standardize_twice.

Theorem C169_rescale_twice :
  forall (D D' : Type) (feat : D -> mat) (kmat : D -> D -> mat) (sample : D)
    (feat' : D' -> mat) (kmat' : D' -> D' -> mat) (sample' : D') (d : nat) (s : tstate val D) (s' : tstate val D'),
    rect d (feat sample) ->
    let num := explicit_numerics feat kmat sample in let num' := explicit_numerics feat' kmat' sample' in
    reached num true s -> reached num' true s' ->
    forall t, (1 <= length (feat sample))%nat ->
    (forall j, (j < d)%nat -> EPS <= lmax (column j (feat sample)) - lmin (column j (feat sample))) ->
    apply num true None None (Some [RName "minmax_rescaling"]) s = (Ok (VMat (feat' sample')), t) ->
    forall x, rect d (feat' (object sample' s' x)) ->
    exists t', apply num' true x None (Some [RName "minmax_rescaling"]) s' = (Ok (VMat (feat' (object sample' s' x))), t').
Proof. exact @rescaling_again. Qed.
Print Assumptions C169_rescale_twice.

(** Projections on the sphere ignore a common factor. *)
Theorem C169_normalize :
  forall (D D' : Type) (feat : D -> mat) (kmat : D -> D -> mat) (sample : D)
    (feat' : D' -> mat) (kmat' : D' -> D' -> mat) (sample' : D'),
    let num := explicit_numerics feat kmat sample in let num' := explicit_numerics feat' kmat' sample' in
    forall (s : tstate val D) (s' : tstate val D') (x x' : option nat) (c : R),
    reached num true s -> reached num' true s' -> 0 < c ->
    feat' (object sample' s' x') = map (map (Rmult c)) (feat (object sample s x)) ->
    Forall (fun r => EPS <= norm r /\ EPS <= c * norm r) (feat (object sample s x)) ->
    exists o t t', apply num true x None (Some [RName "normalize"]) s = (Ok (VMat o), t) /\
      apply num' true x' None (Some [RName "normalize"]) s' = (Ok (VMat o), t').
Proof. exact @normalize_scale. Qed.
Print Assumptions C169_normalize.

(** Temperatures in degrees Celsius and Fahrenheit, and a length in metres and in feet. *)
Example C169_nontrivial :
  let m := [[20; 1]; [30; 2]; [25; 4]] in
  let a := fun j => match j with O => 9 / 5 | _ => 3 end in
  let b := fun j => match j with O => 32 | _ => 0 end in
  let m' := [[68; 3]; [86; 6]; [77; 12]] in
  rect 2 m /\ rect 2 m' /\ (forall j, (j < 2)%nat -> 0 < a j) /\ other_units 2 a b m m' /\
  (2 <= length m)%nat /\
  (forall j, (j < 2)%nat -> EPS <= std (column j m) /\ EPS <= a j * std (column j m)) /\
  exists s s', reached (sample_numerics m) true s /\ reached (sample_numerics m') true s' /\
    other_units 2 a b (t_heap s 0%nat) (t_heap s' 1%nat) /\ t_heap s 0%nat = [[10; 7]].
Proof.
  intros m a b m'. split; [repeat constructor|]. split; [repeat constructor|].
  split; [intros [|j] _; unfold a; lra|].
  split.
  { repeat constructor; intros [|[|j]] Hj; unfold a, b; cbn [nth]; try lra; exfalso; lia. }
  split; [cbn; lia|]. split.
  - assert (E : EPS <= 1) by exact EPS_le_1.
    assert (S0 : 1 <= std (column 0 m)).
    { unfold std, variance. cbn -[mean]. unfold mean. cbn. pose proof sqrt_1 as K. rewrite <- K at 1.
      apply sqrt_le_1_alt. lra. }
    assert (S1 : 1 <= std (column 1 m)).
    { unfold std, variance. cbn -[mean]. unfold mean. cbn. pose proof sqrt_1 as K. rewrite <- K at 1.
      apply sqrt_le_1_alt. lra. }
    intros [|[|j]] Hj; [| |exfalso; lia]; unfold a; lra.
  - destruct (fresh_standard (sample_numerics m) true (fun _ => [[10; 7]])) as (s & Hr & Hh & _).
    destruct (fresh_standard (sample_numerics m') true (fun _ => [[50; 21]])) as (s' & Hr' & Hh' & _).
    exists s, s'. rewrite Hh, Hh'. split; [exact Hr|]. split; [exact Hr'|]. split; [|reflexivity].
    repeat constructor; intros [|[|j]] Hj; unfold a, b; cbn [nth]; try lra; exfalso; lia.
Qed.
