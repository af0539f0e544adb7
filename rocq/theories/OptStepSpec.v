(** Specification of the steps of the optimiser. *)
From Verif Require Import Base Cast.
From mathcomp Require Import all_ssreflect all_algebra.
From Verif Require Import OptStep.
Set Implicit Arguments. Unset Strict Implicit. Unset Printing Implicit Defensive.
Import GRing.Theory Num.Theory.
Local Open Scope ring_scope.

Section Spec.
  Variables (R : realFieldType) (V : lmodType R).

  (** Nothing to do: no parameter of the group has a gradient. *)
  Definition idle (g : group V) : Prop := forall p, List.In p (g_params g) -> p_grad p = None.
  (** The tensor has at least one dimension and its first one is not empty. *)
  Definition proper (p : param V) : Prop := exists r s, p_shape p = r :: s /\ (0 < r)%N.
  (** The values of all the parameters. *)
  Definition values (gs : seq (group V)) : seq (seq V) := [seq [seq p_value p | p <- g_params g] | g <- gs].
  (** Two lists of groups with the same options, whose parameters are related one by one. *)
  Definition related (P : group V -> param V -> param V -> Prop) (gs gs' : seq (group V)) : Prop :=
    List.Forall2 (fun g g' => g' = with_params g (g_params g') /\
      List.Forall2 (P g) (g_params g) (g_params g')) gs gs'.

  (** Gradient descent with weight decay: the new value is [p - lr (grad + decay p)]; the gradient
      tensor afterwards is [grad']. *)
  Definition descended (grad' : group V -> V -> V -> V) (g : group V) (p p' : param V) : Prop :=
    p_shape p' = p_shape p /\ p_buffer p' = p_buffer p /\
    match p_grad p with
    | None => p' = p
    | Some d => p_value p' = p_value p - g_lr g *: (d + g_decay g *: p_value p) /\ p_grad p' = Some (grad' g (p_value p) d)
    end.

  (** As a matrix, with the first dimension for the rows, the parameter has no more rows than columns. *)
  Definition wide (p : param V) : Prop := exists r s, p_shape p = r :: s /\ (r <= foldr muln 1 s)%N.

  (** Steps of the second optimiser on a single parameter: each one with a gradient, the most
      recent one first; the state is [None] after an exception. *)
  Definition train (stf : group V -> param V -> param V) (g : group V) (p : param V) (d : V) : option (param V) :=
    match adam_step stf [:: with_params g [:: Param (p_shape p) (p_value p) (Some d) (p_buffer p)]] with
    | (Ok _, [:: g']) => ohead (g_params g')
    | _ => None
    end.
  Definition trained stf (g : group V) (p : param V) (grads : seq V) : option (param V) :=
    foldr (fun d op => obind (fun p => train stf g p d) op) (Some p) grads.
  (** The average of gradients (most recent first): geometric weights, dampened except for the
      first gradient [d0]. *)
  Definition average (mu damp : R) (ds : seq V) (d0 : V) : V :=
    mu ^+ size ds *: d0 + (1 - damp) *: \sum_(i < size ds) mu ^+ i *: nth 0 ds i.
  (** The gradients of all the parameters. *)
  Definition grads (gs : seq (group V)) : seq (seq (option V)) := [seq [seq p_grad p | p <- g_params g] | g <- gs].
  (** By how much each value moved. *)
  Definition moves (before after : seq (seq V)) : seq (seq V) :=
    [seq [seq xy.2 - xy.1 | xy <- zip st.1 st.2] | st <- zip before after].
End Spec.
