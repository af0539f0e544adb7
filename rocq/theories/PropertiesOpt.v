(** Steps of the optimisers over all the parameters. *)
From Verif Require Import Base Cast.
From mathcomp Require Import all_ssreflect all_algebra.
From Verif Require Import OptStep OptStepSpec OptStepProofs.
Set Implicit Arguments. Unset Strict Implicit. Unset Printing Implicit Defensive.
Import GRing.Theory Num.Theory.
Local Open Scope ring_scope.

(** *** C138 *)

(** Refuted: with the first optimiser and a momentum factor, a step raises an exception at the
    first parameter that is not on the Stiefel manifold and has a gradient, if it comes first
    (as the optimiser orders its groups); no parameter is changed. *)
Theorem C138_momentum_refuted : forall (R : realFieldType) (V : lmodType R) (stf : group V -> param V -> param V)
  (gs1 gs2 : seq (group V)) g ps1 p ps2 d,
  List.Forall (@idle R V) gs1 -> g_params g = ps1 ++ p :: ps2 -> (forall q, List.In q ps1 -> p_grad q = None) ->
  g_stiefel g = false -> g_momentum g != 0 -> p_grad p = Some d -> proper p ->
  exists gs', sgd_step stf (gs1 ++ g :: gs2) = (Err ENameError, gs') /\ values gs' = values (gs1 ++ g :: gs2).
Proof. exact: momentum_fails. Qed.
Print Assumptions C138_momentum_refuted.
(** Without momentum, both optimisers do gradient descent with weight decay on the parameters that
    have a gradient and leave the others alone. *)
Theorem C138_descent_partial : forall (R : realFieldType) (V : lmodType R) (stf : group V -> param V -> param V) (gs : seq (group V)),
  (forall g, List.In g gs -> g_stiefel g = false /\ g_momentum g = 0 /\
    forall p, List.In p (g_params g) -> p_grad p <> None -> proper p) ->
  (exists gs', sgd_step stf gs = (Ok tt, gs') /\ related (descended (fun g v d => d + g_decay g *: v)) gs gs') /\
  (exists gs', adam_step stf gs = (Ok tt, gs') /\ related (descended (fun g v d => d + g_decay g *: v)) gs gs').
Proof.
  move=> R V stf gs H; split; apply: groups_descended => // loc g p; [exact: sgd_one | exact: adam_one].
Qed.
Print Assumptions C138_descent_partial.
(** With momentum, the second optimiser moves along the average of the gradients. *)
Theorem C138_average_partial : forall (R : realFieldType) (V : lmodType R) (stf : group V -> param V -> param V)
  (g : group V) v r s d0 ds, (0 < r)%N -> g_stiefel g = false -> g_momentum g != 0 -> g_decay g = 0 -> g_nesterov g = false ->
  exists p, trained stf g (Param (r :: s) v None None) (rcons ds d0) = Some p /\
    p_buffer p = Some (average (g_momentum g) (g_dampening g) ds d0) /\
    p_value p = v - g_lr g *: \sum_(i < (size ds).+1) average (g_momentum g) (g_dampening g) (drop i ds) d0.
Proof. exact: trained_average. Qed.
Print Assumptions C138_average_partial.
Example C138_nontrivial (R : realFieldType) :
  let p := Param [:: 2%N] (0 : R^o) (Some 1) None in
  let g := Group 1 (2%:R^-1) 0 0 false false [:: p] in
  g_momentum g != 0 /\ p_grad p = Some 1 /\ proper p /\ (sgd_step (fun _ p => p) [:: g]).1 = Err ENameError.
Proof.
  have H : (2%:R^-1 : R) != 0 by rewrite invr_neq0 ?pnatr_eq0.
  move=> p g; split; first exact: H. split=> //. split; first by exists 2%N, [::].
  by rewrite /sgd_step /= /sgd_param /= /plain /= (negbTE H).
Qed.

(** *** C139 *)

(** Refuted: a step cannot succeed if a tensor without dimension has a gradient. *)
Theorem C139_scalar_refuted : forall (R : realFieldType) (V : lmodType R) (stf : group V -> param V -> param V) (gs gs' : seq (group V)) g p,
  List.In g gs -> List.In p (g_params g) -> p_grad p <> None -> p_shape p = [::] ->
  sgd_step stf gs <> (Ok tt, gs') /\ adam_step stf gs <> (Ok tt, gs').
Proof.
  move=> R V stf gs gs' g p I J G S; split=> E.
  - have [r [s []]] : proper p by exact: (groups_proper (@sgd_proper R V stf) E I J G). by rewrite S.
  - have [r [s []]] : proper p by exact: (groups_proper (@adam_proper R V stf) E I J G). by rewrite S.
Qed.
Print Assumptions C139_scalar_refuted.
(** If it is the first one with a gradient, the exception is an [IndexError] and nothing changes. *)
Theorem C139_first_refuted : forall (R : realFieldType) (V : lmodType R) (stf : group V -> param V -> param V)
  (gs1 gs2 : seq (group V)) g ps1 p ps2,
  List.Forall (@idle R V) gs1 -> g_params g = ps1 ++ p :: ps2 -> (forall q, List.In q ps1 -> p_grad q = None) ->
  p_grad p <> None -> p_shape p = [::] ->
  sgd_step stf (gs1 ++ g :: gs2) = (Err EIndexError, gs1 ++ g :: gs2) /\
  adam_step stf (gs1 ++ g :: gs2) = (Err EIndexError, gs1 ++ g :: gs2).
Proof. exact: scalar_fails. Qed.
Print Assumptions C139_first_refuted.
(** The hyperparameters of this kind: all but those of the sigmoid kernel and an unset bandwidth,
    and the bandwidth as well once it has a value. *)
Theorem C139_hyperparameters : (forall h, initial_shape h = [::] <-> ~ List.In h [:: SigmoidA; SigmoidB; Bandwidth]) /\
  assigned_shape = Ok (Some [::]).
Proof. split; [exact: scalar_hypers | reflexivity]. Qed.
Print Assumptions C139_hyperparameters.
(** Tensors with a dimension can be optimised (as in [C138_descent_partial], whatever the shape). *)
Theorem C139_proper_partial : forall (R : realFieldType) (V : lmodType R) (stf : group V -> param V -> param V) (gs : seq (group V)),
  (forall g, List.In g gs -> g_stiefel g = false /\ g_momentum g = 0 /\
    forall p, List.In p (g_params g) -> p_grad p <> None -> proper p) ->
  (sgd_step stf gs).1 = Ok tt /\ (adam_step stf gs).1 = Ok tt.
Proof.
  move=> R V stf gs H; split.
  - by rewrite /sgd_step; have [gs' [-> _]] := groups_descended (@sgd_one R V stf) None H.
  - by rewrite /adam_step; have [gs' [-> _]] := groups_descended (@adam_one R V stf) None H.
Qed.
Print Assumptions C139_proper_partial.
Example C139_nontrivial (R : realFieldType) :
  let p := Param [::] (0 : R^o) (Some 1) None in
  let q := Param [:: 1%N] (0 : R^o) (Some 1) None in
  (sgd_step (fun _ p => p) [:: Group 1 0 0 0 false false [:: p]]).1 = Err EIndexError /\
  (sgd_step (fun _ p => p) [:: Group 1 0 0 0 false false [:: q]]).1 = Ok tt.
Proof. by split=> //; rewrite /sgd_step /= /sgd_param /= /plain /= eqxx. Qed.

(** *** C140 *)

(** Refuted: after a step with a weight decay, the gradients are no longer those of the loss. *)
Theorem C140_gradients_refuted : forall (R : realFieldType) (V : lmodType R) (stf : group V -> param V -> param V)
  (g : group V) p d, g_params g = [:: p] -> p_grad p = Some d -> proper p ->
  g_stiefel g = false -> g_momentum g = 0 -> g_decay g != 0 -> p_value p != 0 ->
  exists p', sgd_step stf [:: g] = (Ok tt, [:: with_params g [:: p']]) /\ p_grad p' <> p_grad p.
Proof. exact: gradient_changed. Qed.
Print Assumptions C140_gradients_refuted.
(** Without weight decay (and on the Stiefel manifold, if the update there does not), a step leaves
    all the gradients as they are, even when it fails. *)
Theorem C140_kept_partial : forall (R : realFieldType) (V : lmodType R) (stf : group V -> param V -> param V) (gs : seq (group V)),
  (forall g p, p_grad (stf g p) = p_grad p) -> (forall g, List.In g gs -> g_decay g = 0) ->
  grads (sgd_step stf gs).2 = grads gs /\ grads (adam_step stf gs).2 = grads gs.
Proof. exact: grads_kept. Qed.
Print Assumptions C140_kept_partial.
Example C140_nontrivial (R : realFieldType) :
  let p := Param [:: 2%N] (1 : R^o) (Some 1) None in
  let g := Group 1 0 1 0 false false [:: p] in
  proper p /\ g_decay g != 0 /\ p_value p != 0.
Proof. by move=> p g; split; [exists 2%N, [::] | rewrite !oner_neq0]. Qed.

(** *** C141 *)

(** Reducing multiplies the learning rate of each group, and changes nothing else; reductions
    compose. *)
Theorem C141_reduce : forall (R : realFieldType) (V : lmodType R) (a b : R) (gs : seq (group V)),
  [seq g_lr g | g <- reduce a gs] = [seq g_lr g * a | g <- gs] /\
  [seq g_params g | g <- reduce a gs] = [seq g_params g | g <- gs] /\
  [seq (g_momentum g, g_decay g, g_dampening g, g_nesterov g, g_stiefel g) | g <- reduce a gs]
    = [seq (g_momentum g, g_decay g, g_dampening g, g_nesterov g, g_stiefel g) | g <- gs] /\
  reduce b (reduce a gs) = reduce (a * b) gs.
Proof. exact: reduce_spec. Qed.
Print Assumptions C141_reduce.
(** A rate that is reduced scales the step of gradient descent. *)
Theorem C141_step : forall (R : realFieldType) (V : lmodType R) (stf : group V -> param V -> param V) (a : R) (gs : seq (group V)),
  (forall g, List.In g gs -> g_stiefel g = false /\ g_momentum g = 0 /\
    forall p, List.In p (g_params g) -> p_grad p <> None -> proper p) ->
  forall gs1 gs2, sgd_step stf gs = (Ok tt, gs1) -> sgd_step stf (reduce a gs) = (Ok tt, gs2) ->
  moves (values gs) (values gs2) = [seq [seq a *: m | m <- ms] | ms <- moves (values gs) (values gs1)].
Proof. exact: reduce_moves. Qed.
Print Assumptions C141_step.
Example C141_nontrivial (R : realFieldType) :
  let p := Param [:: 2%N] (1 : R^o) (Some 1) None in
  let g := Group 1 0 0 0 false false [:: p] in
  (sgd_step (fun _ p => p) [:: g]).1 = Ok tt /\ [seq g_lr g | g <- reduce (2%:R^-1) [:: g]] = [:: 2%:R^-1].
Proof. by split; [rewrite /sgd_step /= /sgd_param /= /plain /= eqxx | rewrite /= mul1r]. Qed.

(** *** C142 *)

(** Refuted: without any trainable parameter, every name is accepted. *)
Theorem C142_silent_refuted : forall type, choose type 0 = Ok None.
Proof. reflexivity. Qed.
Print Assumptions C142_silent_refuted.
(** With trainable parameters, the two names are accepted and any other one is an error. *)
Theorem C142_name_partial : forall type n, (0 < n)%N ->
  (choose type n = Ok (Some SGD) <-> type = "sgd"%string) /\ (choose type n = Ok (Some Adam) <-> type = "adam"%string) /\
  (type <> "sgd"%string -> type <> "adam"%string -> choose type n = Err ETypeError).
Proof. exact: choose_spec. Qed.
Print Assumptions C142_name_partial.
(** A step gives back the loss of the closure; it can be left out only if something is trained. *)
Theorem C142_closure : forall (A : Type) opt (loss : A),
  step_value opt (Some loss) = Ok (Some loss) /\
  step_value opt (@None A) = match opt with Some _ => Ok None | None => Err ETypeError end.
Proof. by move=> A [a|] loss. Qed.
Print Assumptions C142_closure.
Example C142_nontrivial : choose "rmsprop" 0 = Ok None /\ choose "rmsprop" 2 = Err ETypeError /\ choose "adam" 2 = Ok (Some Adam).
Proof. by []. Qed.

(** *** C150 *)

(** In a step that succeeds, each parameter of a group on the manifold that has a gradient and, as a
    matrix, no more rows than columns gets the update on the manifold. *)
Theorem C150_wide_partial : forall (R : realFieldType) (V : lmodType R) (stf : group V -> param V -> param V) (gs gs' : seq (group V)),
  sgd_step stf gs = (Ok tt, gs') \/ adam_step stf gs = (Ok tt, gs') ->
  related (fun g p p' => (p_grad p = None -> p' = p) /\ (p_grad p <> None -> g_stiefel g -> wide p -> p' = stf g p)) gs gs'.
Proof. exact: step_wide. Qed.
Print Assumptions C150_wide_partial.
(** Refuted for more rows than columns: such a parameter gets an ordinary descent step, silently. *)
Theorem C150_tall_refuted : forall (R : realFieldType) (V : lmodType R) (stf : group V -> param V -> param V) (gs gs' : seq (group V)),
  sgd_step stf gs = (Ok tt, gs') \/ adam_step stf gs = (Ok tt, gs') ->
  related (fun g p p' => p_grad p <> None -> ~ wide p -> g_momentum g = 0 -> descended (@decayed R V) g p p') gs gs'.
Proof. exact: step_tall. Qed.
Print Assumptions C150_tall_refuted.
Example C150_nontrivial (R : realFieldType) :
  let V := [lmodType R of R^o] in
  let stf (g : group V) (p : param V) := Param (p_shape p) 0 (p_grad p) (p_buffer p) in
  let square := Param [:: 2; 2]%N (1 : V) (Some 1) None in
  let tall := Param [:: 3; 2]%N (1 : V) (Some 1) None in
  let g := Group (1 : R) 0 0 0 false true [:: square; tall] in
  exists g', sgd_step stf [:: g] = (Ok tt, [:: g']) /\ [seq p_value p | p <- g_params g'] = [:: 0; 0] /\
    wide square /\ ~ wide tall.
Proof.
  eexists. split; first by rewrite /sgd_step /= /sgd_param /= /plain /= !eqxx. split; last split.
  - by rewrite /= scale1r subrr.
  - by exists 2%N, [:: 2%N].
  - by move=> [r [s [[<- <-]]]].
Qed.
