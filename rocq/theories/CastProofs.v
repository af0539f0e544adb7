(** Proofs about casting. *)
From Verif Require Import Base Cast CastSpec.
Open Scope nat_scope.
Open Scope string_scope.
Open Scope list_scope.

Section P.
Context {A : Type}.
Implicit Types (x y : array A).
Lemma cast_scalar : forall x, a_shape x = [] ->
  castf (Some x) true = Ok (Some (Array [1; 1] (a_data x))) /\ entry (Array [1; 1] (a_data x)) [0; 0] = entry x [].
Proof. intros [sh d] E. cbn [a_shape] in E. subst sh. split; reflexivity. Qed.
Lemma cast_vector : forall x n, a_shape x = [n] ->
  castf (Some x) true = Ok (Some (Array [n; 1] (a_data x))) /\
  forall i, entry (Array [n; 1] (a_data x)) [i; 0] = entry x [i].
Proof.
  intros [sh d] n E. cbn [a_shape] in E. subst sh. split; [reflexivity|]. intros i. unfold entry. cbn [a_shape a_data position count].
  destruct (Nat.ltb i n); cbn [option_map Nat.ltb Nat.leb]; [|reflexivity]. rewrite !Nat.add_0_r, ?Nat.mul_1_r. reflexivity.
Qed.
Lemma cast_matrix : forall x n m, a_shape x = [n; m] -> castf (Some x) true = Ok (Some x).
Proof. intros [sh d] n m E. cbn [a_shape] in E. subst sh. reflexivity. Qed.
Lemma cast_reject : forall x, 3 <= List.length (a_shape x) -> castf (Some x) true = Err ENameError.
Proof. intros [sh d] L. cbn [a_shape] in L. destruct sh as [|a [|b [|c sh]]]; cbn in L; try lia. reflexivity. Qed.
Lemma cast_result : forall x y, castf (Some x) true = Ok (Some y) ->
  List.length (a_shape y) = 2 /\ a_data y = a_data x /\ count (a_shape y) = count (a_shape x) /\ castf (Some y) true = Ok (Some y).
Proof.
  intros [sh d] y H. destruct sh as [|a [|b [|c sh]]]; cbn in H; try discriminate H; injection H as <-; cbn [a_shape a_data List.length count].
  - split; [reflexivity|]. split; [reflexivity|]. split; reflexivity.
  - split; [reflexivity|]. split; [reflexivity|]. split; [cbn; lia | reflexivity].
  - split; [reflexivity|]. split; [reflexivity|]. split; reflexivity.
Qed.
Lemma cast_well_formed : forall x y, well_formed x -> castf (Some x) true = Ok (Some y) -> well_formed y.
Proof.
  intros x y W H. destruct (cast_result x y H) as [_ [D [C _]]]. unfold well_formed in *. rewrite D, C. exact W.
Qed.
Lemma cast_none : forall t, castf (@None (array A)) t = Ok None.
Proof. reflexivity. Qed.
Lemma cast_asis : forall x, castf (Some x) false = Ok (Some x).
Proof. reflexivity. Qed.

(** Integers: dimensions of size one are always lost. *)
Lemma casti_dims : forall x t y, casti (Some x) t = Ok (Some y) -> ~ In 1 (a_shape y).
Proof.
  intros x t y H I.
  assert (X : forall z : array A, ~ In 1 (a_shape (squeeze z))).
  { intros z J. cbn [squeeze a_shape] in J. apply filter_In in J. destruct J as [_ J]. discriminate J. }
  destruct t; cbn [casti] in H.
  - destruct (to_matrix x); [|discriminate H]. cbn [bind] in H. injection H as <-. exact (X _ I).
  - injection H as <-. exact (X _ I).
Qed.
Lemma casti_one : forall (v : A) t, t = true \/ t = false -> casti (Some (Array [1] [v])) t = Ok (Some (Array [] [v])).
Proof. intros v t [-> | ->]; reflexivity. Qed.
Lemma casti_row : forall n l, n <> 1 -> casti (Some (@Array A [1; n] l)) true = Ok (Some (Array [n] l)).
Proof.
  intros n l N. cbn. unfold squeeze. cbn [a_shape a_data filter Nat.eqb negb].
  replace (Nat.eqb n 1) with false by (symmetry; apply Nat.eqb_neq; exact N). reflexivity.
Qed.
Lemma casti_keeps : forall x n m, a_shape x = [n; m] -> n <> 1 -> m <> 1 -> casti (Some x) true = Ok (Some x).
Proof.
  intros [sh d] n m E N M. cbn [a_shape] in E. subst sh. cbn. unfold squeeze. cbn [a_shape a_data filter].
  replace (Nat.eqb n 1) with false by (symmetry; apply Nat.eqb_neq; exact N).
  replace (Nat.eqb m 1) with false by (symmetry; apply Nat.eqb_neq; exact M). reflexivity.
Qed.
End P.
Lemma representation_spec : forall rep default r, check_representation rep default = Ok r <->
  (r = "primal" \/ r = "dual") /\ (rep = Some r \/ (rep = None /\ default = Some r)).
Proof.
  assert (K : forall r, smem r ["primal"; "dual"] = true <-> r = "primal" \/ r = "dual").
  { intros r. cbn. rewrite orb_false_r. rewrite orb_true_iff. rewrite !String.eqb_eq. reflexivity. }
  intros rep default r. unfold check_representation.
  assert (G : forall q : option string, match q with Some r0 => if smem r0 ["primal"; "dual"] then Ok r0 else Err ERepresentation | None => Err ERepresentation end = Ok r
     <-> (r = "primal" \/ r = "dual") /\ q = Some r).
  { intros [q|]; [|split; [intros H; discriminate H | intros [_ H]; discriminate H]].
    destruct (smem q ["primal"; "dual"]) eqn:E.
    - split; [intros H; injection H as ->; split; [apply K; exact E | reflexivity] | intros [_ H]; injection H as ->; reflexivity].
    - split; [intros H; discriminate H|]. intros [H1 H2]. injection H2 as ->. apply K in H1. congruence. }
  rewrite G. destruct rep as [rep|]; [|destruct default as [d|]].
  - split; [intros [H1 H2]; split; [exact H1 | left; exact H2] | intros [H1 [H2|[H2 H3]]]; split; [exact H1 | exact H2 | exact H1 | discriminate H2]].
  - split; [intros [H1 H2]; split; [exact H1 | right; split; [reflexivity | exact H2]]
           | intros [H1 [H2|[H2 H3]]]; split; [exact H1 | discriminate H2 | exact H1 | exact H3]].
  - split; [intros [_ H]; discriminate H | intros [_ [H|[_ H]]]; discriminate H].
Qed.
Lemma representation_error : forall rep default e, check_representation rep default = Err e -> e = ERepresentation.
Proof.
  intros rep default e H. unfold check_representation in H.
  destruct (match rep, default with None, Some d => Some d | _, _ => rep end) as [r|]; [destruct (smem r ["primal"; "dual"])|]; congruence.
Qed.
