(** C153: a deep copy of a kernel or a level is independent of the original. *)
From Verif Require Import Base Copies CopiesSpec CopiesProofs.
From Coq Require Import Lia.
Open Scope string_scope.
Open Scope nat_scope.
Open Scope list_scope.

(** Right after copying, the copy reads what the original reads, which is unchanged: for every heap of objects. *)
Theorem C153_same_partial : forall (V : Type) (h : heap V) (a : nat) (path : list string), closed h -> a < List.length h ->
  let '(h', a') := deepcopy h a in read h' a' path = read h a path /\ (forall b, b < List.length h -> read h' b path = read h b path).
Proof.
  intros V h a path C L. destruct (deepcopy h a) as [h' a'] eqn:D.
  assert (H' : h' = fst (deepcopy h a)) by (rewrite D; reflexivity). assert (A' : a' = a + List.length h) by (unfold deepcopy in D; congruence).
  rewrite H', A'. split; [apply copy_same; assumption | intros b B; apply copy_keeps; assumption].
Qed.
Print Assumptions C153_same_partial.

(** When no object keeps a function, neither reads what is assigned later to the other. *)
Theorem C153_independent_partial : forall (V : Type) (h : heap V) (a : nat) (path : list string) (ws : list (assign V)),
  closed h -> no_closure h -> a < List.length h ->
  let '(h', a') := deepcopy h a in
  ((forall w, In w ws -> of_copy (List.length h) w) -> read (assigns h' ws) a path = read h a path) /\
  ((forall w, In w ws -> of_original (List.length h) w) -> read (assigns h' ws) a' path = read h a path).
Proof. intros V h a path ws C NC L. apply copy_independent; assumption. Qed.
Print Assumptions C153_independent_partial.

(** Whatever is assigned later to either, a copied sigmoid kernel computes with the parameters of
    the original; so does a copy of the copy. *)
Theorem C153_sigmoid_refuted : forall (V : Type) (h : heap V) (k : nat) (a b : V) (ws : list (assign V)),
  nth_error h k = Some (sigmoid k a b) ->
  let '(h', k') := deepcopy h k in
  let '(h'', k'') := deepcopy (assigns h' ws) k' in
  sigmoid_kernel (assigns h' ws) k' = (read (assigns h' ws) k ["_a"], read (assigns h' ws) k ["_b"]) /\
  (forall ws', sigmoid_kernel (assigns h'' ws') k'' = (read (assigns h'' ws') k ["_a"], read (assigns h'' ws') k ["_b"])).
Proof.
  intros V h k a b ws R. assert (L : k < List.length h) by (apply nth_error_Some; rewrite R; discriminate).
  pose proof (fun p => closure_reads h k _ "_linear" k p ws R eq_refl L) as Q.
  destruct (deepcopy h k) as [h' k'] eqn:D.
  assert (H' : h' = fst (deepcopy h k)) by (rewrite D; reflexivity). assert (A' : k' = k + List.length h) by (unfold deepcopy in D; congruence).
  assert (R2 : nth_error h' k' = Some (sigmoid k a b)) by (rewrite H', A', copy_nth_high, R; reflexivity).
  destruct (assigns_field ws h' k' _ "_linear" R2) as [r' [E F]].
  assert (F' : field r' "_linear" = Some (Closure k)).
  { simpl in F. destruct (field r' "_linear") as [x|]; [|contradiction F]. destruct F as [->|[_ F]]; [reflexivity | discriminate F]. }
  assert (L2 : k' < List.length (assigns h' ws)) by (apply nth_error_Some; rewrite E; discriminate).
  pose proof (fun p ws' => closure_reads (assigns h' ws) k' r' "_linear" k p ws' E F' L2) as Q2.
  destruct (deepcopy (assigns h' ws) k') as [h'' k'']. split.
  - unfold sigmoid_kernel. rewrite (proj1 (Q ["_a"])), (proj1 (Q ["_b"])). reflexivity.
  - intro ws'. unfold sigmoid_kernel. rewrite (proj1 (Q2 ["_a"] ws')), (proj1 (Q2 ["_b"] ws')). reflexivity.
Qed.
Print Assumptions C153_sigmoid_refuted.

(** Training the original changes the copy, and training the copy changes nothing: [(2, 3)] stays
    although the copy has been given [(10, 20)], and becomes [(7, 3)] when the original is given 7.
    A copied polynomial kernel keeps its own. *)
Example C153_nontrivial :
  (let '(h', k') := deepcopy [sigmoid 0 2 3] 0 in
   sigmoid_kernel (assigns h' [Assign k' "_a" 10; Assign k' "_b" 20]) k' = (Some 2, Some 3) /\
   sigmoid_kernel (assigns h' [Assign 0 "_a" 7]) k' = (Some 7, Some 3) /\
   read (assigns h' [Assign k' "_a" 10]) k' ["_a"] = Some 10) /\
  (let '(h', k') := deepcopy [polynomial 2 3] 0 in
   closed [polynomial 2 3] /\ no_closure [polynomial 2 3] /\
   polynomial_kernel (assigns h' [Assign k' "_alpha" 10]) k' = (Some 10, Some 3) /\
   polynomial_kernel (assigns h' [Assign k' "_alpha" 10]) 0 = (Some 2, Some 3) /\
   polynomial_kernel (assigns h' [Assign 0 "_alpha" 7]) k' = (Some 2, Some 3)) /\
  (* a model that holds a level *)
  (let h := [[("_level0", Ref 1); ("_eta", Data 5)]; polynomial 2 3] in
   let '(h', k') := deepcopy h 0 in
   closed h /\ no_closure h /\ read h' k' ["_level0"; "_beta"] = Some 3 /\
   read (assigns h' [Assign 1 "_beta" 9]) k' ["_level0"; "_beta"] = Some 3 /\
   read (assigns h' [Assign 3 "_beta" 9]) k' ["_level0"; "_beta"] = Some 9).
Proof.
  split; [vm_compute; repeat split|]. split.
  - split; [apply closedb_sound; reflexivity|]. split; [apply no_closureb_sound; reflexivity|]. vm_compute; repeat split.
  - split; [apply closedb_sound; reflexivity|]. split; [apply no_closureb_sound; reflexivity|]. vm_compute; repeat split.
Qed.
Print Assumptions C153_nontrivial.
