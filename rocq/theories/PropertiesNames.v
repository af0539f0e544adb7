(** C94 and C34: the distances a kernel can be given by name, and which kernels announce that
    they are normalised. *)
From Verif Require Import Base RVec KernelR Beautify Factory NamesSpec NamesProofs.
Open Scope string_scope.

(** Whatever the case of the letters, each name gives its distance, the Minkowski distance
    with the order that is given and not without, and no other name is accepted. *)
Theorem C94_distance_names :
  forall (name : string) (order : option R),
    (forall o, In (lower name, o) distances -> select_distance (lower name) order = offered_as o order) /\
    (~ In (lower name) (map fst distances) -> select_distance (lower name) order = Err EValueError).
Proof. exact distance_names. Qed.
Print Assumptions C94_distance_names.

Example C94_distance_names_nontrivial :
  select_distance (lower "Chebyshev") None = Ok Chebyshev /\
  select_distance (lower "minkowski") (Some 3%R) = Ok (Minkowski 3) /\
  ~ In (lower "hamming") (map fst distances).
Proof. split; [reflexivity|]. split; [reflexivity|]. cbn. intros H. repeat destruct H as [H|H]; try discriminate H; exact H. Qed.

(** A distance kernel announces that it is normalised without transform unless it is the
    logistic one, and with transforms exactly when the last one normalises. *)
Theorem C34_announced_partial :
  forall (k : kern) (default : list cls),
    announced k default = true <-> (default = [] /\ k <> Logistic) \/ exists l, default = (l ++ [Sphere])%list.
Proof. exact announced_when. Qed.
Print Assumptions C34_announced_partial.

Example C34_announced_nontrivial :
  announced Logistic [MeanCenter; Sphere] = true /\ announced Quartic [Sphere; MeanCenter] = false.
Proof. split; reflexivity. Qed.
