(** Property theorem C175: the default types. *)
From Coq Require Import QArith.
From Verif Require Import Base Precision PrecisionSpec PrecisionProofs.
Open Scope string_scope.
Open Scope list_scope.

(** * C175 *)

(** A chosen type does not reach everything: [kerch.FTYPE] remains what it was whatever is done, and
    after the first use of anything a change leaves new samples and targets, converted by [castf],
    with the former type while the parameters have the new one; an LS-SVM can then not be solved in primal. *)
Theorem C175_refuted :
  (forall os d, read (run imported (os ++ [SetF (Dtype d)])) "kerch" FTYPE = Some (VType F32)) /\
  (let s := run imported [Load "utils.cast"; SetF (Dtype F64)] in
   read s "utils.cast" FTYPE = Some (VType F32) /\ read s "level.single_view.LSSVM" FTYPE = Some (VType F64) /\
   solve_primal_types F32 F64 = Err ERuntimeError).
Proof. split; [intros os d; exact (kerch_never _ FTYPE eq_refl) | repeat split]. Qed.
Print Assumptions C175_refuted.

(** What is read through [kerch.utils] is what was chosen last. *)
Theorem C175_through_partial :
  forall os m n, access_of m n = Some Through -> read (run imported os) m n = Some (chosen os n).
Proof. exact through_follows. Qed.
Print Assumptions C175_through_partial.

(** A module that has a copy has what was chosen last before it was loaded for the first time. *)
Theorem C175_copied_partial :
  forall os m n v, access_of m n = Some Copied -> m <> "kerch" ->
    (read (run imported os) m n = Some v <->
     exists before after, os = before ++ Load m :: after /\ ~ In (Load m) before /\ v = chosen before n).
Proof. exact copied_at_load. Qed.
Print Assumptions C175_copied_partial.

(** These are the modules that have a copy. *)
Theorem C175_copies : forall m n, access_of m n = Some Copied <-> In (m, n)
  [("level.single_view.View", FTYPE); ("kernel.random_features.random_features", FTYPE); ("kernel.random_features.rff", FTYPE);
   ("transform.all.Sphere", EPS); ("transform.all.MinMaxNormalization", EPS); ("transform.all.Variance", EPS);
   ("data.datasets", FTYPE); ("utils.cast", FTYPE); ("utils.cast", ITYPE); ("kerch", FTYPE); ("kerch", ITYPE)].
Proof. exact copies_listed. Qed.
Print Assumptions C175_copies.

(** So a choice that is made before anything is used, and not changed later, reaches all of them but
    [kerch.FTYPE] and [kerch.ITYPE], which never change. *)
Theorem C175_early_partial :
  forall early late m n v, m <> "kerch" ->
    (forall o, In o early -> is_load o = false) -> (forall o, In o late -> chooses n o = false) ->
    read (run imported (early ++ late)) m n = Some v -> v = chosen early n.
Proof. exact early_agree. Qed.
Print Assumptions C175_early_partial.

Theorem C175_kerch_partial :
  forall os, read (run imported os) "kerch" FTYPE = Some (VType F32) /\ read (run imported os) "kerch" ITYPE = Some (VType I32).
Proof. intro os. exact (conj (kerch_never os FTYPE eq_refl) (kerch_never os ITYPE eq_refl)). Qed.
Print Assumptions C175_kerch_partial.

(** A call that is rejected changes nothing; a call changes only what it is for. *)
Theorem C175_frame_partial :
  forall s o, (fst (step s o) <> Ok tt -> fst (step s o) = Err EAssertionError /\ snd (step s o) = s) /\
              (forall m n, chooses n o = false -> is_load o = false -> read (snd (step s o)) m n = read s m n).
Proof.
  intros s o. split; [|intros m n; exact (others s o m n)]. intro H. split; [|exact (proj1 (proj2 (proj2 (proj2 (rejected s NoDtype 0)))) o H)].
  destruct o as [[d|]|[d|]|q|m]; cbn [step fst] in *; try reflexivity; try (elim H; reflexivity).
  destruct (Qle_bool 0 q); [elim H; reflexivity | reflexivity].
Qed.
Print Assumptions C175_frame_partial.

(** An LS-SVM can be solved in primal exactly when the type of the parameters is not wider than that
    of the data. *)
Theorem C175_solve_partial :
  forall c l, floating c -> floating l ->
    ((width l <= width c)%nat -> solve_primal_types c l = Ok c) /\ ((width c < width l)%nat -> solve_primal_types c l = Err ERuntimeError).
Proof. exact solve_types. Qed.
Print Assumptions C175_solve_partial.

Example C175_nontrivial :
  let os := [SetF (Dtype F64); Load "utils.cast"; SetF NoDtype; Load "transform.all.Sphere"; SetEps (1 # 100)] in
  read (run imported os) "utils.cast" FTYPE = Some (VType F64) /\
  read (run imported os) "level._View" FTYPE = Some (VType F64) /\
  read (run imported os) "transform.all.Sphere" EPS = Some (VEps (1 # 10000000) F32) /\
  read (run imported os) "kernel.nystrom" EPS = Some (VEps (1 # 100) F64) /\
  chosen os EPS = VEps (1 # 100) F64.
Proof. repeat split. Qed.
