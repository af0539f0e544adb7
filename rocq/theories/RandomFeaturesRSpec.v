(** Vocabulary for the properties of random features. *)
From Verif Require Import Base RVec RandomFeaturesR.
Open Scope R_scope.

(** Parameters accepted by the constructors, except negative slopes. *)
Definition admissible (a : act) : Prop :=
  match a with
  | Arcsinh => True
  | LReLU al => 0 < al
  | Hyperbola h => 0 < h_alpha h /\ 0 < h_gamma h /\ 0 < h_delta h /\ 0 < h_beta h /\ h_alpha h * h_gamma h < h_beta h ^ 2
  | Fourier => False
  end.

Definition apply_matrix (m : mat) (x : vec) : vec := map (fun r => dot r x) m.
(** [p] is a pseudo-inverse of [w]: [w p w = w]. *)
Definition pseudo_inverse (d : nat) (w p : mat) : Prop :=
  length p = d /\ rect (length w) p /\
  forall x, length x = d -> apply_matrix w (apply_matrix p (apply_matrix w x)) = apply_matrix w x.
(** The columns of [w] are independent; its rows are. *)
Definition full_column_rank (d : nat) (w : mat) : Prop :=
  forall c, length c = d -> Forall (fun r => dot r c = 0) w -> Forall (fun a => a = 0) c.
Definition full_row_rank (d : nat) (w : mat) : Prop :=
  forall v, length v = length w -> exists x, length x = d /\ apply_matrix w x = v.
