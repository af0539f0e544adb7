(** Property theorems C78: the parameters handed to the optimiser. *)
From Verif Require Import Base Params ParamsSpec ParamsProofs.
Open Scope nat_scope.
Open Scope list_scope.

(** What is generated is listed once each, in order, whatever is shared. *)
Theorem C78_listed_once :
  forall ps, each_once_in_order ps (manifold_parameters ps).
Proof. exact listed_once. Qed.
Print Assumptions C78_listed_once.

(** The groups contain each parameter at most once, and exactly the trainable ones among those
    generated. *)
Theorem C78_groups :
  forall grad ps gs, groups grad ps = Ok gs -> forall p,
    occurrences p gs <= 1 /\ (occurrences p gs = 1 <-> (grad p = true /\ exists k l, ps k = Ok l /\ In p l)).
Proof. exact groups_count. Qed.
Print Assumptions C78_groups.

(** In models whose modules are samples, kernels with bandwidth, polynomial, time, skewed or
    implicit neural kernels and kernel PCA levels, nested in any way, every trainable parameter
    is optimised exactly once. *)
Theorem C78_complete_partial :
  forall grad (levels : list pmod) gs,
    groups grad (fun k => model_generated k true levels) = Ok gs -> Forall sound_tree levels ->
    forall k p m, In m levels -> offered k p m -> grad p = true -> occurrences p gs = 1.
Proof. exact offered_optimised. Qed.
Print Assumptions C78_complete_partial.

(** Their parameters can always be listed. *)
Theorem C78_never_fails_partial :
  forall k m, sound_tree m -> exists l, generated k true m = Ok l.
Proof. exact sound_ok. Qed.
Print Assumptions C78_never_fails_partial.

(** The trainable parameters of a sigmoid kernel and those of random features are never
    optimised, wherever they are: these classes hand over what is generated without them. *)
Theorem C78_sigmoid_refuted :
  forall k recurse b lys lys' cs a c,
    generated k recurse (PMod b (lys ++ ly_sigmoid a c :: lys') cs) = generated k recurse (PMod b (lys ++ lys') cs).
Proof. exact sigmoid_ignored. Qed.
Print Assumptions C78_sigmoid_refuted.
Theorem C78_random_features_refuted :
  forall k recurse b lys lys' cs w s,
    generated k recurse (PMod b (lys ++ ly_random_features w s :: lys') cs) = generated k recurse (PMod b (lys ++ lys') cs).
Proof. exact random_features_ignored. Qed.
Print Assumptions C78_random_features_refuted.

(** An explicit neural kernel hides the sample and everything below it. *)
Theorem C78_explicit_nn_refuted :
  forall recurse b lys cs t nets,
    generated Euclidean recurse (PMod b (ly_explicit_nn t nets :: lys) cs) = Ok (if t then nets else []).
Proof. exact explicit_nn_hides. Qed.
Print Assumptions C78_explicit_nn_refuted.

(** The weights of a least-squares support vector machine in primal are not handed over: its
    parameters cannot be listed, or are others. *)
Theorem C78_lssvm_primal_refuted :
  forall recurse b lys cs dual weights attr bias gamma rest,
    generated Euclidean recurse (PMod b lys cs) = Ok rest ->
    generated Euclidean recurse (PMod b (ly_lssvm true dual weights attr bias gamma :: lys) cs) =
    match attr with None => Err EAttributeError | Some w => Ok (rest ++ [w; bias]) end.
Proof. exact lssvm_primal. Qed.
Print Assumptions C78_lssvm_primal_refuted.

(** Its regularisation parameter requires a gradient and is in no group. *)
Theorem C78_lssvm_gamma_refuted :
  forall k recurse b lys cs primal dual weights attr bias gamma gamma',
    generated k recurse (PMod b (ly_lssvm primal dual weights attr bias gamma :: lys) cs) =
    generated k recurse (PMod b (ly_lssvm primal dual weights attr bias gamma' :: lys) cs).
Proof. exact lssvm_gamma. Qed.
Print Assumptions C78_lssvm_gamma_refuted.

(** A probabilistic kernel PCA level hides the parameters on the Stiefel manifold of everything below it; it
    leaves the others as they are. *)
Theorem C78_ppca_refuted :
  forall recurse b lys cs param,
    generated Stiefel recurse (PMod b (ly_ppca param :: lys) cs) = Ok (match param with Some p => [p] | None => [] end) /\
    forall k, k <> Stiefel -> generated k recurse (PMod b (ly_ppca param :: lys) cs) = generated k recurse (PMod b lys cs).
Proof.
  intros recurse b lys cs param. split; [reflexivity|]. intros k Hk. destruct k; try reflexivity. now destruct Hk.
Qed.
Print Assumptions C78_ppca_refuted.

(** A kernel PCA level with sample [1], dual variables [2] and bandwidth [3], stacked on one that
    shares its bandwidth, its sample being kept fixed; and classes that lose parameters. *)
Example C78_nontrivial :
  let kpca s d sg := PMod true [ly_kpca (Some d); ly_distance sg; ly_sample s] [] in
  let grad p := negb (Nat.eqb p 4) in
  Forall sound_tree [kpca 1 2 3; kpca 4 5 3] /\
  groups grad (fun k => model_generated k true [kpca 1 2 3; kpca 4 5 3]) =
    Ok [(Euclidean, [1]); (Slow, [3]); (Stiefel, [2; 5])] /\
  groups grad (fun k => model_generated k true [PMod true [ly_sigmoid 7 8; ly_sample 1] []]) = Ok [(Euclidean, [1])] /\
  groups grad (fun k => model_generated k true [PMod true [ly_explicit_nn false [7]; ly_sample 1] []]) = Ok [] /\
  groups grad (fun k => model_generated k true [PMod true [ly_lssvm true 1 2 None 3 5; ly_sample 6] []]) = Err EAttributeError /\
  groups grad (fun k => model_generated k true [PMod true [ly_lssvm false 1 2 None 3 5; ly_sample 6] []]) = Ok [(Euclidean, [6; 1; 3])].
Proof.
  cbv zeta. split; [repeat constructor|]. repeat split; reflexivity.
Qed.
