(** Proofs about training. *)
From Verif Require Import Base Trainer TrainerSpec.
Open Scope nat_scope.
Open Scope list_scope.

Lemma batches_concat : forall b l acc, List.concat (batches b acc l) = acc ++ l.
Proof.
  intros b l. induction l as [|x l IH]; intros acc; cbn [batches].
  - destruct acc; [reflexivity|]. cbn [List.concat]. reflexivity.
  - destruct (Nat.eqb (S (List.length acc)) b); cbn [List.concat]; rewrite IH; rewrite <- app_assoc; reflexivity.
Qed.
Lemma batches_sizes : forall b l acc, List.length acc < b ->
  forall x, In x (batches b acc l) -> 1 <= List.length x <= b.
Proof.
  intros b l. induction l as [|y l IH]; intros acc L x H; cbn [batches] in H.
  - destruct acc as [|a acc]; [contradiction|]. destruct H as [<-|[]]. cbn [List.length] in *. lia.
  - destruct (Nat.eqb_spec (S (List.length acc)) b) as [E|E].
    + destruct H as [<-|H]; [rewrite app_length; cbn; lia|]. apply (IH [] ltac:(cbn; lia) x H).
    + apply (IH (acc ++ [y])); [rewrite app_length; cbn; lia | exact H].
Qed.
Lemma batches_full : forall b l acc, List.length acc < b ->
  forall i x, nth_error (batches b acc l) i = Some x -> S i < List.length (batches b acc l) -> List.length x = b.
Proof.
  intros b l. induction l as [|y l IH]; intros acc L i x H N; cbn [batches] in *.
  - destruct acc as [|a acc]; cbn in N; lia.
  - destruct (Nat.eqb_spec (S (List.length acc)) b) as [E|E].
    + destruct i as [|i]; [injection H as <-; rewrite app_length; cbn; lia|].
      cbn [nth_error] in H. cbn [List.length] in N. apply (IH [] ltac:(cbn; lia) i x H). lia.
    + apply (IH (acc ++ [y]) ltac:(rewrite app_length; cbn; lia) i x H N).
Qed.

Lemma batch_all : batch_sampler 0 0 = Err EValueError.
Proof. reflexivity. Qed.
Lemma set_accepts : forall num t v, admissible num v ->
  exists b bs, size_of num v b /\ set_batch_size num t v = (Ok tt, Batching bs (Some v)) /\
    List.concat bs = seq 0 num /\ (forall x, In x bs -> 1 <= List.length x <= b) /\
    (forall i x, nth_error bs i = Some x -> S i < List.length bs -> List.length x = b).
Proof.
  intros num t v [b [S B]]. exists b, (batches b [] (seq 0 num)). split; [exact S|].
  assert (L : List.length (@nil nat) < b) by (cbn; lia).
  split.
  - unfold set_batch_size. destruct v as [s|z|c|]; cbn [size_of] in S; try contradiction.
    + destruct S as [-> ->]. cbn [String.eqb]. unfold batch_sampler.
      replace (Nat.eqb num 0) with false by (symmetry; apply Nat.eqb_neq; lia). reflexivity.
    + subst z. replace (Z.of_nat b <=? 0)%Z with false by (symmetry; apply Z.leb_gt; lia).
      replace (Z.of_nat num <? Z.of_nat b)%Z with false by (symmetry; apply Z.ltb_ge; lia).
      rewrite Nat2Z.id. unfold batch_sampler.
      replace (Nat.eqb b 0) with false by (symmetry; apply Nat.eqb_neq; lia). reflexivity.
  - split; [rewrite batches_concat; reflexivity|]. split; [apply batches_sizes; exact L | apply batches_full; exact L].
Qed.
Lemma set_rejects : forall num t v, ~ admissible num v ->
  exists e, set_batch_size num t v = (Err e, t) /\ (e = EAssertionError \/ e = EValueError).
Proof.
  intros num t v N. unfold set_batch_size. destruct v as [s|z|c|].
  - destruct (String.eqb_spec s "all") as [->|D]; [|eauto].
    destruct num as [|num]; [cbn; eauto|]. exfalso. apply N. exists (S num). split; [split; reflexivity | lia].
  - destruct (Z.leb_spec z 0); [eauto|]. destruct (Z.ltb_spec (Z.of_nat num) z); [eauto|].
    exfalso. apply N. exists (Z.to_nat z). split; [cbn; lia | lia].
  - destruct c; [destruct (Nat.eqb num 0)|]; eauto.
  - eauto.
Qed.
Lemma visited_epochs : forall num t v t', set_batch_size num t v = (Ok tt, t') ->
  forall epochs, visited t' epochs = List.concat (repeat (seq 0 num) epochs).
Proof.
  intros num t v t' H.
  assert (C : List.concat (bt_sampler t') = seq 0 num).
  { assert (X : forall n b bs, batch_sampler n b = Ok bs -> List.concat bs = seq 0 n).
    { intros n b bs E. unfold batch_sampler in E. destruct (Nat.eqb b 0); [discriminate E|]. injection E as <-. rewrite batches_concat. reflexivity. }
    unfold set_batch_size in H. destruct v as [s|z|c|].
    - destruct (String.eqb s "all"); [|discriminate H]. destruct (batch_sampler num num) eqn:E; [|discriminate H].
      injection H as <-. exact (X _ _ _ E).
    - destruct (z <=? 0)%Z; [discriminate H|]. destruct (Z.of_nat num <? z)%Z; [discriminate H|].
      destruct (batch_sampler num (Z.to_nat z)) eqn:E; [|discriminate H]. injection H as <-. exact (X _ _ _ E).
    - destruct c; [destruct (Nat.eqb num 0)|]; discriminate H.
    - discriminate H. }
  intros epochs. induction epochs as [|e IH]; [reflexivity|]. cbn [visited repeat List.concat]. rewrite C, IH. reflexivity.
Qed.

Section G.
Context {P G D : Type} (zero : G) (add : G -> G -> G) (grad_of : P -> D -> G) (upd : P -> G -> P).

Lemma steps_used : forall bs (s : P * G) i p b g,
  nth_error (steps add grad_of upd s bs) i = Some (p, b, g) ->
  g = fold_left add (own_gradients grad_of (firstn (S i) (steps add grad_of upd s bs))) (snd s).
Proof.
  induction bs as [|d bs IH]; intros s i p b g H; [destruct i; discriminate H|].
  cbn [steps] in *. destruct i as [|i].
  - injection H as <- <- <-. reflexivity.
  - cbn [nth_error] in H. cbn [firstn]. unfold own_gradients. cbn [map fst snd fold_left].
    exact (IH (train_step add grad_of upd s d) i p b g H).
Qed.
Lemma epoch_used : forall p0 bs i p b g,
  nth_error (epoch_steps zero add grad_of upd p0 bs) i = Some (p, b, g) ->
  g = fold_left add (own_gradients grad_of (firstn (S i) (epoch_steps zero add grad_of upd p0 bs))) zero.
Proof. intros p0 bs i p b g H. exact (steps_used bs (p0, zero) i p b g H). Qed.

(** Hence the second step uses its own gradient only if the first one vanished. *)
Lemma second_step : (forall x, add zero x = x) -> (forall x y, add x y = y -> x = zero) ->
  forall p0 b0 b1 bs p b g, grad_of p0 b0 <> zero ->
  nth_error (epoch_steps zero add grad_of upd p0 (b0 :: b1 :: bs)) 1 = Some (p, b, g) -> g <> grad_of p b.
Proof.
  intros Z C p0 b0 b1 bs p b g N H E. cbn in H. injection H as <- <- <-.
  apply C in E. rewrite Z in E. contradiction.
Qed.
Lemma single_batch : (forall x, add zero x = x) -> forall p0 b0,
  epoch_steps zero add grad_of upd p0 [b0] = [(p0, b0, grad_of p0 b0)].
Proof. intros Z p0 b0. cbn. rewrite Z. reflexivity. Qed.
End G.
