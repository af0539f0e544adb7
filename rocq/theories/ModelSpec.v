(** What is expected of a model and its levels. *)
From Verif Require Import Base ModelState.
Open Scope nat_scope.
Open Scope string_scope.
Open Scope list_scope.

(** The output dimension of each level is known and is the input dimension of the next one. *)
Definition fits_together (m : model) : Prop :=
  forall i l l', nth_error m i = Some l -> nth_error m (S i) = Some l' ->
  exists q, lv_out l = Some q /\ lv_in l' = Some q.

(** The size of the matrix a level decomposes when it is solved: the number of points in dual,
    the feature dimension in primal. *)
Definition matrix_size (l : level) (n : nat) : Prop :=
  if lv_primal l then lv_feat l (lv_in l) = Ok n else lv_total l = Some n.

(** A solve that has enough points or features and finds no small eigenvalue. *)
Definition full_rank (l : level) (pruned : nat) : Prop :=
  pruned = 0 /\ exists q, lv_out l = Some q /\ forall n, matrix_size l n -> q <= n.

(** Each solve of a history is one of these. *)
Fixpoint full_rank_history (m : model) (os : list mop) : Prop :=
  match os with
  | [] => True
  | o :: os' =>
      match o with
      | MSolve i p => forall l, nth_error m i = Some l -> full_rank l p
      | _ => True
      end /\ full_rank_history (mstep m o) os'
  end.

Definition soft_constraint (a : largs) : Prop := g_constraint a = None \/ g_constraint a = Some "soft".

(** The data of a level are given when it is created. *)
Definition with_data (a : largs) : Prop :=
  exists_ (g_sample a) = true \/ (exists_ (g_in a) = true /\ exists_ (g_num a) = true).
