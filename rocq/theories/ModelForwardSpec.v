(** What evaluating a model should do. *)
From Verif Require Import Base Cache Tree ModuleTree Sample SampleSpec ModelForward.
Open Scope Z_scope.

Section Spec.
  Context {F V P : Type}.
  Variable B : behaviour F P.

  (** [y] results from [x] by calling the levels one after the other. *)
  Inductive composed : option (tensor F) -> list (flevel F V P) -> option (tensor F) -> Prop :=
  | composed_none : forall x, composed x [] x
  | composed_more : forall x l ls y z, call B l x = Ok y -> composed (Some y) ls z -> composed x (l :: ls) z.

  (** The sample of [n'] is that of [n] with the rows of [y] written at the rows [idx]. *)
  Definition rows_written (n n' : sstate F V) (idx : list Z) (y : tensor F) : Prop :=
    List.length idx = List.length (t_rows y) /\
    forall p, row (ss_sample n') p =
      match row (ss_sample n) p with
      | None => None
      | Some old => match last_given (nrows (ss_sample n)) idx (t_rows y) p with
                    | Some v => Some (expand (t_cols (ss_sample n)) v)
                    | None => Some old
                    end
      end.

  (** All points of a level are selected. *)
  Definition all_selected (l : flevel F V P) : Prop :=
    ss_num (fl_state l) = Some (nrows (ss_sample (fl_state l))) /\
    ss_idx (fl_state l) = Some (range (nrows (ss_sample (fl_state l)))).

  (** On its own points, a level computes its own outputs. *)
  Definition own_consistent : Prop :=
    forall p t, b_other B p t (Some (range (nrows t))) t = b_own B p t (Some (range (nrows t))).

  (** The outputs are tensors as wide as the points of the next level. *)
  Definition wide_enough (ls : list (flevel F V P)) : Prop :=
    forall i l l' y, nth_error ls i = Some l -> nth_error ls (S i) = Some l' -> call_own B l = Ok y ->
    rectangular y /\ t_cols y = t_cols (ss_sample (fl_state l')).
End Spec.
