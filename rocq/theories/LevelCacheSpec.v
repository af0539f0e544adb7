(** What the outputs and losses of a level should be, without any cache. *)
From Verif Require Import Base Cache CacheSpec LevelCache.

Section Spec.
  Context {D W L X O R : Type}.
  Variable out_dual : D -> option X -> result O.
  Variable out_primal : W -> L -> option X -> result O.
  Variable root : L -> L.
  Variable loss_original : bool -> result R.
  Variable loss_projected_dual : D -> result R.
  Variable loss_projected_primal : W -> result R.
  Variable sub : R -> R -> R.
  Implicit Types s : level D W L X O R.

  (** The output for an input, from the parameters and the contents of this moment. *)
  Definition output_now s (x : input) (primal : bool) : result O :=
    if primal then out_primal (p_primal (l_params s)) (root (p_vals (l_params s))) (content s x)
    else out_dual (p_dual (l_params s)) (content s x).
  Definition projected_now s (primal : bool) : result R :=
    if primal then loss_projected_primal (p_primal (l_params s)) else loss_projected_dual (p_dual (l_params s)).
  Definition loss_now s (primal : bool) : result R :=
    bind (loss_original primal) (fun a => bind (projected_now s primal) (fun b => Ok (sub a b))).

  (** The level of caching of a level. *)
  Definition caches_at s (n : Z) : Prop := c_level (l_cache s) = LInt n.
  Definition no_reset (o : lop D W L X) : Prop := match o with LReset => False | _ => True end.

  (** Histories in which nothing is read between a change of the parameters or of the
      contents of the inputs and the reset that follows it. *)
  Fixpoint careful (dirty : bool) (os : list (lop D W L X)) : Prop :=
    match os with
    | [] => dirty = false
    | o :: os' =>
        match o with
        | LChange _ _ | LInputs _ => careful true os'
        | LReset => careful false os'
        | LAfterStep => careful dirty os'
        | _ => dirty = false /\ careful false os'
        end
    end.
End Spec.
