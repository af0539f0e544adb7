(** Training flag and gradient of a sample along histories (C200). *)
From Verif Require Import Base BaseProofs Cache ModuleTree Sample SampleSpec SampleProofs SampleFlagSpec.
Open Scope Z_scope.

Section Proofs.
  Context {F V : Type}.
  Variable orth : nat -> nat -> list (list F).
  Notation sstate := (Sample.sstate F V).

  Lemma select_flag (s : sstate) r :
    ss_trainable (snd (select_idx s r)) = ss_trainable s /\ ss_grad (snd (select_idx s r)) = ss_grad s /\
    ss_sample (snd (select_idx s r)) = ss_sample s.
  Proof. unfold select_idx. destruct (ss_num s); [|auto]. destruct (selection z r); auto. Qed.

  Lemma none_flag (s : sstate) r : ss_trainable (snd (init_sample orth s NoSample r)) = ss_trainable s.
  Proof.
    cbn [init_sample]. destruct (ss_num s) as [n|]; [|reflexivity]. destruct (ss_dim s) as [d|]; [|reflexivity].
    destruct (_ || _); [reflexivity|]. cbv zeta. now rewrite (proj1 (select_flag _ r)).
  Qed.

  Lemma update_flag (s : sstate) v i : ss_trainable (snd (update_sample s v i)) = ss_trainable s.
  Proof.
    unfold update_sample. destruct (empty_sample s); [reflexivity|]. destruct (negb _); [reflexivity|].
    destruct (write_rows _ _ _); [|reflexivity].
    destruct (ss_trainable s) eqn:E; [destruct (ss_grad s)|]; cbn; now rewrite ?E.
  Qed.

  Lemma step_flag (s : sstate) o : ss_trainable (snd (sstep orth s o)) = last_word (ss_trainable s) [o].
  Proof.
    destruct o as [a r|d|n|v i|r|b|g]; cbn [sstep last_word]; try reflexivity.
    - destruct a as [|t rg g|t].
      + apply none_flag.
      + cbn [init_sample]. now rewrite (proj1 (select_flag _ r)).
      + cbn [init_sample]. now rewrite (proj1 (select_flag _ r)).
    - unfold set_dim. destruct (ss_dim s); [reflexivity|]. destruct (ss_num s); [|reflexivity].
      now rewrite none_flag.
    - unfold set_num. destruct (ss_num s); [reflexivity|]. destruct (ss_dim s); [|reflexivity].
      now rewrite none_flag.
    - apply update_flag.
    - apply select_flag.
  Qed.

  Lemma last_word_cons b o (os : list (sop F)) : last_word b (o :: os) = last_word (last_word b [o]) os.
  Proof. destruct o as [[|t rg g|t] r|d|n|v i|r|b'|g]; reflexivity. Qed.

  Lemma run_flag os : forall s : sstate, ss_trainable (srun orth s os) = last_word (ss_trainable s) os.
  Proof.
    induction os as [|o os IH]; intros s; [reflexivity|].
    rewrite last_word_cons, <- step_flag. unfold srun. cbn [fold_left]. apply IH.
  Qed.

  Lemma step_grad (s : sstate) o : no_creation o -> ss_grad (snd (sstep orth s o)) = last_gradient (ss_grad s) [o].
  Proof.
    destruct o as [a r|d|n|v i|r|b|g]; cbn [sstep last_gradient no_creation]; intros H; try reflexivity; try contradiction.
    - destruct a as [|t rg g|t]; [contradiction| |]; cbn [init_sample];
        now rewrite (proj1 (proj2 (select_flag _ r))).
    - apply update_sample_grad.
    - apply select_flag.
  Qed.

  Lemma last_gradient_cons g o (os : list (sop F)) : last_gradient g (o :: os) = last_gradient (last_gradient g [o]) os.
  Proof. destruct o as [[|t rg g'|t] r|d|n|v i|r|b'|g']; reflexivity. Qed.

  Lemma run_grad os : forall s : sstate, Forall no_creation os -> ss_grad (srun orth s os) = last_gradient (ss_grad s) os.
  Proof.
    induction os as [|o os IH]; intros s Hos; [reflexivity|]. apply Forall_cons_iff in Hos. destruct Hos as [Ho Hos].
    rewrite last_gradient_cons, <- step_grad by exact Ho. unfold srun. cbn [fold_left]. now apply IH.
  Qed.

  Lemma init_handed (s : sstate) a r t rg g : handed_over (ss_trainable s) a = Some (t, rg, g) ->
    let s' := snd (init_sample orth s a r) in
    ss_sample s' = t /\ ss_trainable s' = rg /\ ss_grad s' = g.
  Proof.
    destruct a as [|t' rg' g'|t']; cbn [handed_over init_sample]; [discriminate| |]; intros [= <- <- <-]; cbv zeta;
      (split; [now rewrite (proj2 (proj2 (select_flag _ r)))|split; [now rewrite (proj1 (select_flag _ r))|]];
       now rewrite (proj1 (proj2 (select_flag _ r)))).
  Qed.

  Lemma new_flag level a num dim tr r os :
    let s := snd (@new_sample F V orth level a num dim tr r) in
    ss_trainable (srun orth s os) = last_word tr (SInit a r :: os).
  Proof.
    cbn zeta. rewrite run_flag, last_word_cons. f_equal. unfold new_sample.
    destruct a as [|t rg g|t]; [apply none_flag| |]; cbn [init_sample last_word]; now rewrite (proj1 (select_flag _ r)).
  Qed.
End Proofs.
