(** C181 and C182 *)
From Coq Require Import Permutation.
From Verif Require Import Base Classes Abstract AbstractSpec Options OptionsSpec OptionsProofs.
Open Scope nat_scope.
Open Scope string_scope.
Open Scope list_scope.

(** C181.  For every chain of constructors, of kerch or of a user: each option that a class reads is
    read once, with the value given by the caller if there is one, and the default of the first class
    of the chain that has one otherwise, as long as no class before keeps the option for itself. *)
Theorem C181_chain : forall tb mro kw out, NoDup mro -> reads_once tb mro -> construct tb mro kw = Ok out ->
  Permutation (map fst out) (all_reads tb mro) /\
  (forall c n v, In (c, n, v) out -> hidden tb mro c n = false -> ~ In n (dkeys (forced c)) ->
     Some v = match dget kw n with Some w => Some w | None => default tb mro c n end).
Proof.
  intros tb mro kw out ND RO H. split; [apply (everything tb mro kw out RO H)|].
  intros c n v I HD FO. destruct (chain tb mro kw out ND RO H c n v I) as [_ [_ V]]. apply V; [exact HD | intros _; exact FO].
Qed.
Print Assumptions C181_chain.

(** For every kernel of kerch, alone or in a level, with every distance, and all options: every class
    gets what the caller gives, and the default of the class that reads it otherwise (C188 compares with
    the documentation); the only exception
    is [squared] of the RBF and Laplacian kernels, which is fixed. *)
Theorem C181_kerch : forall mro kw out, In mro objects -> construct layer_of mro kw = Ok out ->
  Permutation (map fst out) (all_reads layer_of mro) /\
  (forall c n v, In (c, n, v) out -> overruled mro c n = false ->
     (forall w, dget kw n = Some w -> v = w) /\ (dget kw n = None -> documented_default mro c n = Some v)) /\
  (forall v, In ("Exponential", "squared", v) out -> (In "RBF" mro -> v = VTrue) /\ (In "Laplacian" mro -> v = VFalse)).
Proof.
  intros mro kw out I H. destruct (checked mro I) as [ND [RO [_ [CH _]]]].
  split; [apply (everything _ _ _ _ RO H)|]. split.
  - intros c n v J O. destruct (chain _ _ _ _ ND RO H c n v J) as [IC [IN V]]. destruct (CH c n IC IN) as [C1 [C2 C3]].
    rewrite C1 in V. specialize (V O C2). rewrite C3 in V. split.
    + intros w W. rewrite W in V. injection V as ->. reflexivity.
    + intro N. rewrite N in V. symmetry. exact V.
  - intros v J. split; intro K.
    + apply (overruled_value mro kw out "RBF" VTrue I K (or_introl (conj eq_refl eq_refl)) H v J).
    + apply (overruled_value mro kw out "Laplacian" VFalse I K (or_intror (conj eq_refl eq_refl)) H v J).
Qed.
Print Assumptions C181_kerch.

(** C182 (full statement, false: "an option that is announced as neglected has no effect").  Exactly:
    the object can be created if and only if no such option is given with another value than the
    one that is used anyway; otherwise an [AttributeError] is raised, as the warning cannot be given. *)
Theorem C182_exact_partial : forall mro kw, In mro objects ->
  (is_ok (construct layer_of mro kw) = true <-> nothing_to_neglect mro kw) /\
  (forall e, construct layer_of mro kw = Err e -> e = EAttributeError).
Proof.
  intros mro kw I. destruct (checked mro I) as [ND [RO [DF [_ NG]]]].
  destruct (when_ok layer_of mro kw ND RO DF (fun c n vs J N => proj1 (NG c n vs J N))) as [W1 W2].
  split; [|exact W2]. rewrite W1. unfold nothing_to_neglect. split.
  - intros H c n vs v J N D. apply (H c n vs v J N). rewrite D. reflexivity.
  - intros H c n vs v J N D. destruct (dget kw n) as [w|] eqn:E.
    + injection D as <-. apply (H c n vs w J N E).
    + apply (proj2 (NG c n vs J N) v D).
Qed.
Print Assumptions C182_exact_partial.

Theorem C182_refuted : forall mro kw, In mro objects ->
  (In "RBF" mro -> dget kw "squared" = Some VFalse -> construct layer_of mro kw = Err EAttributeError) /\
  (In "Laplacian" mro -> dget kw "squared" = Some VTrue -> construct layer_of mro kw = Err EAttributeError) /\
  (In "Ridge" mro -> dget kw "requires_bias" = Some VTrue -> construct layer_of mro kw = Err EAttributeError).
Proof.
  intros mro kw I. destruct (C182_exact_partial mro kw I) as [W1 W2].
  assert (X : forall c n vs v, In c mro -> neglected c = Some (n, vs) -> dget kw n = Some v -> ~ In v vs -> construct layer_of mro kw = Err EAttributeError).
  { intros c n vs v J N D NI. destruct (construct layer_of mro kw) as [o|e]; [|rewrite (W2 e eq_refl); reflexivity].
    exfalso. apply NI. apply (proj1 W1 eq_refl c n vs v J N D). }
  split; [|split].
  - intros J D. apply (X "RBF" "squared" [VNone; VTrue] VFalse J eq_refl D). intros [F | [F | []]]; discriminate F.
  - intros J D. apply (X "Laplacian" "squared" [VNone; VFalse] VTrue J eq_refl D). intros [F | [F | []]]; discriminate F.
  - intros J D. apply (X "Ridge" "requires_bias" [VNone; VFalse] VTrue J eq_refl D). intros [F | [F | []]]; discriminate F.
Qed.
Print Assumptions C182_refuted.

(** The objects are there, with and without options. *)
Example C181_nontrivial :
  List.length objects = 648 /\
  match kerch_level "LSSVM" "RBF" None with
  | Ok mro => match construct layer_of mro [("gamma", VOther "2"); ("sigma", VOther "3")] with
              | Ok out => In ("LSSVM", "gamma", VOther "2") out /\ In ("_Distance", "sigma", VOther "3") out /\
                          In ("View", "requires_bias", VTrue) out /\ In ("Cache", "cache_level", VOther "'normal'") out
              | Err _ => False end
  | Err _ => False end /\
  match kerch_level "Ridge" "Laplacian" None with
  | Ok mro => match construct layer_of mro [] with
              | Ok out => In ("View", "requires_bias", VFalse) out /\ In ("Exponential", "squared", VFalse) out
              | Err _ => False end
  | Err _ => False end.
Proof. vm_compute. tauto. Qed.
Print Assumptions C181_nontrivial.

Example C182_nontrivial :
  match kerch_kernel "RBF" None with
  | Ok mro => construct layer_of mro [("squared", VFalse)] = Err EAttributeError /\ is_ok (construct layer_of mro [("squared", VTrue)]) = true
  | Err _ => False end /\
  match kerch_kernel "Exponential" None with
  | Ok mro => is_ok (construct layer_of mro [("squared", VFalse)]) = true
  | Err _ => False end.
Proof. vm_compute. tauto. Qed.
Print Assumptions C182_nontrivial.
