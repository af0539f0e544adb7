(** Property theorems C53, C54 (history), C107: reading the variances. *)
From Verif Require Import Base RVec RVecProofs TotalVariance VarianceSpec TotalVarianceProofs.
Open Scope R_scope.

(** * C53 *)

(** After any history of reads and resets, the value read is the trace divided by the number
    of points once per normalised read since the last reset, if the value is cached. *)
Theorem C53_value :
  forall default level trace num os r b, (0 < num)%nat ->
    let out := total_variance default level trace num (tvrun default level trace num tv0 os) r b in
    value (snd out) (fst out) =
    trace r / INR num ^ ((if Nat.leb (needed default r) level then normalised r os 0 else 0) + (if b then 1 else 0)).
Proof. exact read_exact. Qed.
Print Assumptions C53_value.

(** The same question has the same answer when the value is not cached, or when nobody asked
    for a normalised value. *)
Theorem C53_stable_partial :
  forall default level trace num os r b, (0 < num)%nat ->
    (level < needed default r)%nat \/ (forall r', ~ In (TRead r' true) os) ->
    let out := total_variance default level trace num (tvrun default level trace num tv0 os) r b in
    value (snd out) (fst out) = if b then trace r / INR num else trace r.
Proof. exact read_stable_never. Qed.
Print Assumptions C53_stable_partial.

(** At the default cache level, the default question asked twice has two answers. *)
Theorem C53_normalised_refuted :
  forall level trace num r, (2 <= level)%nat -> (2 <= num)%nat -> trace r <> 0 ->
    let first := total_variance r level trace num tv0 r true in
    let second := total_variance r level trace num (snd first) r true in
    value (snd first) (fst first) = trace r / INR num /\
    value (snd second) (fst second) = trace r / (INR num * INR num) /\
    value (snd second) (fst second) <> value (snd first) (fst first).
Proof. exact read_twice_default. Qed.
Print Assumptions C53_normalised_refuted.

Example C53_nontrivial :
  let trace := fun r => match r with Primal => 3 | Dual => 6 end in
  trace Primal <> 0 /\ (2 <= 2)%nat /\
  normalised Primal [TRead Primal true; TRead Dual true; TRead Primal false; TRead Primal true] 0 = 2%nat.
Proof. split; [cbn; lra|]. split; [lia|reflexivity]. Qed.

(** * C54 *)

(** A model that keeps everything explains [num] times the variance after one default
    reading of the total variance. *)
Theorem C54_history_refuted :
  forall level trace num r vals, (2 <= level)%nat -> (2 <= num)%nat -> 0 < trace r -> sum vals = trace r ->
    fst (relative_variance r level trace num vals tv0) = 1 /\
    fst (relative_variance r level trace num vals (tvrun r level trace num tv0 [TRead r true])) = INR num /\ 1 < INR num.
Proof. exact relative_above_default. Qed.
Print Assumptions C54_history_refuted.

(** * C107 *)

(** A variance that was returned changes at the next normalised reading. *)
Theorem C107_returned_refuted :
  forall level trace num r b, (2 <= level)%nat -> (2 <= num)%nat -> trace r <> 0 ->
    let first := total_variance r level trace num tv0 r b in
    let second := total_variance r level trace num (snd first) r true in
    value (snd second) (fst first) <> value (snd first) (fst first).
Proof. exact returned_changes. Qed.
Print Assumptions C107_returned_refuted.
(** It does not change as long as no normalised value is read. *)
Theorem C107_returned_partial :
  forall default level trace num os r b os', (0 < num)%nat -> (forall r', ~ In (TRead r' true) os') ->
    let out := total_variance default level trace num (tvrun default level trace num tv0 os) r b in
    value (tvrun default level trace num (snd out) os') (fst out) = value (snd out) (fst out).
Proof. exact returned_stable. Qed.
Print Assumptions C107_returned_partial.

Example C107_nontrivial :
  let trace := fun r => match r with Primal => 3 | Dual => 6 end in
  trace Dual <> 0 /\ (forall r', ~ In (TRead r' true) [TRead Dual false; TReset; TRead Primal false]).
Proof. split; [cbn; lra|]. intros r' [E|[E|[E|[]]]]; discriminate E. Qed.
