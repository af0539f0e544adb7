(** Property theorems C59, C60, C116, C117: the cached outputs and losses of a level. *)
From Verif Require Import Base Cache CacheSpec LevelCache LevelCacheSpec LevelCacheProofs.
Open Scope Z_scope.

(** * C59 *)

(** At the default caching level and above, an output once returned is returned for ever,
    whatever happens to the parameters, unless the cache is reset. *)
Theorem C59_outputs_frozen_refuted :
  forall (D W L X O R : Type) (out_dual : D -> option X -> result O) (out_primal : W -> L -> option X -> result O) (root : L -> L)
         (lo : bool -> result R) (ld : D -> result R) (lp : W -> result R) (sub : R -> R -> R) n p r f os0 os x r' o,
    2 <= n -> Forall no_reset os ->
    let s := lrun out_dual out_primal root lo ld lp sub (level0 (LInt n) p r f) os0 in
    fst (forward out_dual out_primal root s x r') = Ok o ->
    fst (forward out_dual out_primal root
           (lrun out_dual out_primal root lo ld lp sub (snd (forward out_dual out_primal root s x r')) os) x r') = Ok o.
Proof. exact @reachable_output_frozen. Qed.
Print Assumptions C59_outputs_frozen_refuted.

(** A step of training between two reads: the parameters are now 2, the output still 1. *)
Theorem C59_outputs_follow_refuted :
  exists os,
    let s := ex_run 2 os in
    fst (forward ex_dual ex_primal Nat.sqrt s Whole false) = Ok 1%nat /\
    output_now ex_dual ex_primal Nat.sqrt s Whole false = Ok 2%nat.
Proof. exact outputs_follow_refuted. Qed.
Print Assumptions C59_outputs_follow_refuted.

(** Below the default caching level the outputs follow the parameters, after any history. *)
Theorem C59_uncached_partial :
  forall (D W L X O R : Type) (out_dual : D -> option X -> result O) (out_primal : W -> L -> option X -> result O) (root : L -> L)
         (lo : bool -> result R) (ld : D -> result R) (lp : W -> result R) (sub : R -> R -> R) n p r f os x r',
    n < 2 ->
    let s := lrun out_dual out_primal root lo ld lp sub (level0 (LInt n) p r f) os in
    fst (forward out_dual out_primal root s x r') = output_now out_dual out_primal root s x r'.
Proof. exact @uncached_outputs. Qed.
Print Assumptions C59_uncached_partial.

(** So they do at every level when each change is followed by a reset before the next read. *)
Theorem C59_careful_partial :
  forall (D W L X O R : Type) (out_dual : D -> option X -> result O) (out_primal : W -> L -> option X -> result O) (root : L -> L)
         (lo : bool -> result R) (ld : D -> result R) (lp : W -> result R) (sub : R -> R -> R) n p r f os x r',
    careful false os ->
    let s := lrun out_dual out_primal root lo ld lp sub (level0 (LInt n) p r f) os in
    fst (forward out_dual out_primal root s x r') = output_now out_dual out_primal root s x r'.
Proof. exact @careful_outputs. Qed.
Print Assumptions C59_careful_partial.

Example C59_nontrivial :
  careful false [LForward Whole false; ex_new; LReset; LForward Whole false] /\
  fst (forward ex_dual ex_primal Nat.sqrt (ex_run 2 [LForward Whole false; ex_new; LReset]) Whole false) = Ok 2%nat /\
  fst (forward ex_dual ex_primal Nat.sqrt (ex_run 1 [LForward Whole false; ex_new]) Whole false) = Ok 2%nat /\
  fst (forward ex_dual ex_primal Nat.sqrt (ex_run 2 [LForward Whole false; ex_new]) Whole false) = Ok 1%nat.
Proof. repeat split; reflexivity. Qed.

(** * C60 *)

(** At the default caching level and above, the loss found by the preparation of a step is
    the loss of all later steps. *)
Theorem C60_before_step_frozen_refuted :
  forall (D W L X O R : Type) (out_dual : D -> option X -> result O) (out_primal : W -> L -> option X -> result O) (root : L -> L)
         (lo : bool -> result R) (ld : D -> result R) (lp : W -> result R) (sub : R -> R -> R) n p r f os0 os,
    2 <= n -> Forall no_reset os ->
    let s := lrun out_dual out_primal root lo ld lp sub (level0 (LInt n) p r f) os0 in
    fst (before_step lo ld lp sub s) = Ok tt ->
    exists l, fst (loss lo ld lp sub s (l_primal s)) = Ok l /\
      fst (loss lo ld lp sub (lrun out_dual out_primal root lo ld lp sub (snd (before_step lo ld lp sub s)) os) (l_primal s)) = Ok l.
Proof. exact @reachable_before_step_frozen. Qed.
Print Assumptions C60_before_step_frozen_refuted.

(** Two steps: the loss of the parameters is 8, the one reported 9. *)
Theorem C60_losses_refreshed_refuted :
  exists os,
    let s := ex_run 2 os in
    fst (loss ex_original ex_projected ex_projected Nat.sub s false) = Ok 9%nat /\
    loss_now ex_original ex_projected ex_projected Nat.sub s false = Ok 8%nat.
Proof. exact losses_refreshed_refuted. Qed.
Print Assumptions C60_losses_refreshed_refuted.

Theorem C60_uncached_partial :
  forall (D W L X O R : Type) (out_dual : D -> option X -> result O) (out_primal : W -> L -> option X -> result O) (root : L -> L)
         (lo : bool -> result R) (ld : D -> result R) (lp : W -> result R) (sub : R -> R -> R) n p r f os r',
    n < 2 ->
    let s := lrun out_dual out_primal root lo ld lp sub (level0 (LInt n) p r f) os in
    fst (loss lo ld lp sub s r') = loss_now lo ld lp sub s r'.
Proof. exact @uncached_losses. Qed.
Print Assumptions C60_uncached_partial.

Theorem C60_careful_partial :
  forall (D W L X O R : Type) (out_dual : D -> option X -> result O) (out_primal : W -> L -> option X -> result O) (root : L -> L)
         (lo : bool -> result R) (ld : D -> result R) (lp : W -> result R) (sub : R -> R -> R) n p r f os r',
    careful false os ->
    let s := lrun out_dual out_primal root lo ld lp sub (level0 (LInt n) p r f) os in
    fst (loss lo ld lp sub s r') = loss_now lo ld lp sub s r'.
Proof. exact @careful_losses. Qed.
Print Assumptions C60_careful_partial.

Example C60_nontrivial :
  fst (before_step ex_original ex_projected ex_projected Nat.sub (ex_level 2)) = Ok tt /\
  fst (loss ex_original ex_projected ex_projected Nat.sub (ex_run 1 [LBeforeStep; ex_new; LAfterStep]) false) = Ok 8%nat /\
  careful false [LBeforeStep; ex_new; LAfterStep; LReset; LBeforeStep] /\
  fst (loss ex_original ex_projected ex_projected Nat.sub (ex_run 2 [LBeforeStep; ex_new; LAfterStep; LReset; LBeforeStep]) false) = Ok 8%nat.
Proof. repeat split; reflexivity. Qed.

(** * C116 *)

(** In dual an input seen for the first time is mapped by the parameters of the moment. *)
Theorem C116_first_dual_partial :
  forall (D W L X O R : Type) (out_dual : D -> option X -> result O) (out_primal : W -> L -> option X -> result O) (root : L -> L)
         (lo : bool -> result R) (ld : D -> result R) (lp : W -> result R) (sub : R -> R -> R) n p r f os x,
    ~ In (LForward x false) os ->
    let s := lrun out_dual out_primal root lo ld lp sub (level0 (LInt n) p r f) os in
    fst (forward out_dual out_primal root s x false) = output_now out_dual out_primal root s x false.
Proof. exact @first_dual_output. Qed.
Print Assumptions C116_first_dual_partial.

(** In primal it is mapped with the eigenvalues of the first read. *)
Theorem C116_first_primal_refuted :
  exists os, ~ In (LForward Whole true) os /\
    let s := ex_run 2 os in
    fst (forward ex_dual ex_primal Nat.sqrt s Whole true) = Ok 6%nat /\
    output_now ex_dual ex_primal Nat.sqrt s Whole true = Ok 9%nat.
Proof. exact first_primal_output_refuted. Qed.
Print Assumptions C116_first_primal_refuted.

Example C116_nontrivial :
  ~ In (LForward (Object "b") false) [LForward (Object "a") false; ex_new] /\
  fst (forward ex_dual ex_primal Nat.sqrt (ex_run 4 [LForward (Object "a") false; ex_new]) (Object "b") false) = Ok 7%nat.
Proof. split; [|reflexivity]. intros [H|[H|[]]]; [discriminate H|discriminate H]. Qed.

(** * C117 *)

(** With the parameters untouched, an input whose contents changed, or another one in its
    place in memory, gets the output of the former contents. *)
Theorem C117_contents_refuted :
  exists os, Forall (fun o => match o with LForward _ _ | LInputs _ => True | _ => False end) os /\
    let s := ex_run 2 os in
    fst (forward ex_dual ex_primal Nat.sqrt s (Object "a") false) = Ok 6%nat /\
    output_now ex_dual ex_primal Nat.sqrt s (Object "a") false = Ok 8%nat.
Proof. exact contents_refuted. Qed.
Print Assumptions C117_contents_refuted.

(** Different objects never share an output: as long as contents and parameters stay, what
    was read before does not matter. *)
Theorem C117_distinct_partial :
  forall (D W L X O R : Type) (out_dual : D -> option X -> result O) (out_primal : W -> L -> option X -> result O) (root : L -> L)
         (lo : bool -> result R) (ld : D -> result R) (lp : W -> result R) (sub : R -> R -> R) n p r f os x r',
    Forall (fun o => match o with LForward _ _ | LLoss _ | LBeforeStep | LAfterStep => True | _ => False end) os ->
    fst (forward out_dual out_primal root (lrun out_dual out_primal root lo ld lp sub (level0 (LInt n) p r f) os) x r') =
    output_now out_dual out_primal root (@level0 D W L X O R (LInt n) p r f) x r'.
Proof. exact @reads_only_output. Qed.
Print Assumptions C117_distinct_partial.

Example C117_nontrivial :
  fst (forward ex_dual ex_primal Nat.sqrt (ex_run 2 [LForward Whole false; LForward (Object "a") true; LBeforeStep]) (Object "a") false) = Ok 6%nat.
Proof. reflexivity. Qed.
