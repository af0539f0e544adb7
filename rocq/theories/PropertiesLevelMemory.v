(** C116, C117 and C59: the outputs of a caching level over every history, by comparison
    with a memory of the outputs given since the last reset (LevelMemorySpec.v). *)
From Verif Require Import Base Cache CacheSpec LevelCache LevelCacheSpec LevelCacheProofs LevelMemorySpec LevelMemoryProofs.
Open Scope string_scope.
Open Scope Z_scope.

(** From the level normal on and for every history, the output is the one given before for
    that input and representation since the last reset, if there is one; otherwise that of
    the present parameters and contents, in primal with the roots first used. *)
Theorem C59_exactly :
  forall (D W L X O R : Type) (out_dual : D -> option X -> result O) (out_primal : W -> L -> option X -> result O) (root : L -> L)
         (lo : bool -> result R) (ld : D -> result R) (lp : W -> result R) (sub : R -> R -> R) n p r f os x r',
    2 <= n ->
    fst (forward out_dual out_primal root (lrun out_dual out_primal root lo ld lp sub (level0 (LInt n) p r f) os) x r') =
    answer out_dual out_primal root (mrun out_dual out_primal root (memory0 p f) os) x r'.
Proof. exact @level_remembers. Qed.
Print Assumptions C59_exactly.

Example C59_exactly_nontrivial :
  let os := [LForward (Object "a") true; ex_new; LForward Whole false; LReset; LForward Whole true; LInputs (fun _ => 7%nat)] in
  answer ex_dual ex_primal Nat.sqrt (mrun ex_dual ex_primal Nat.sqrt (memory0 (Params 1 1 4)%nat (fun _ => 5%nat)) os) Whole true = Ok 9%nat /\
  answer ex_dual ex_primal Nat.sqrt (mrun ex_dual ex_primal Nat.sqrt (memory0 (Params 1 1 4)%nat (fun _ => 5%nat)) (firstn 3 os)) Whole true = Ok 6%nat.
Proof. split; reflexivity. Qed.

(** C116 in primal: whatever happens after the first read but a reset, an input not seen
    before is mapped with the eigenvalues of that first read. *)
Theorem C116_every_refuted :
  forall (D W L X O R : Type) (out_dual : D -> option X -> result O) (out_primal : W -> L -> option X -> result O) (root : L -> L)
         (lo : bool -> result R) (ld : D -> result R) (lp : W -> result R) (sub : R -> R -> R) n p r f y x os,
    2 <= n -> x <> y -> Forall no_reset os -> ~ In (LForward x true) os ->
    let s := lrun out_dual out_primal root lo ld lp sub (level0 (LInt n) p r f) (LForward y true :: os) in
    fst (forward out_dual out_primal root s x true) =
    out_primal (p_primal (l_params s)) (root (p_vals p)) (content s x).
Proof. exact @primal_roots_of_first. Qed.
Print Assumptions C116_every_refuted.

Example C116_every_nontrivial :
  let os := [ex_new; LBeforeStep; LForward Whole false] in
  Forall (@no_reset nat nat nat nat) os /\ ~ In (LForward Whole true) os /\
  fst (forward ex_dual ex_primal Nat.sqrt (ex_run 2 (LForward (Object "a") true :: os)) Whole true) = Ok (3 * 2 + 0)%nat.
Proof.
  split; [repeat constructor|]. split; [|reflexivity]. intros [H|[H|[H|[]]]]; discriminate H.
Qed.

(** C117: whatever the history, an input once mapped keeps its output whatever its
    contents become. *)
Theorem C117_every_refuted :
  forall (D W L X O R : Type) (out_dual : D -> option X -> result O) (out_primal : W -> L -> option X -> result O) (root : L -> L)
         (lo : bool -> result R) (ld : D -> result R) (lp : W -> result R) (sub : R -> R -> R) n p r f os x r' o g,
    2 <= n ->
    let s := lrun out_dual out_primal root lo ld lp sub (level0 (LInt n) p r f) os in
    fst (forward out_dual out_primal root s x r') = Ok o ->
    fst (forward out_dual out_primal root (lrun out_dual out_primal root lo ld lp sub s [LForward x r'; LInputs g]) x r') = Ok o.
Proof. exact @contents_ignored. Qed.
Print Assumptions C117_every_refuted.

Example C117_every_nontrivial :
  fst (forward ex_dual ex_primal Nat.sqrt (ex_run 3 [ex_new; LBeforeStep]) (Object "a") true) = Ok 14%nat.
Proof. reflexivity. Qed.
