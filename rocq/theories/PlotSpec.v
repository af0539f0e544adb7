(** What the plots announce. *)
From Coq Require Import QArith.
From Verif Require Import Base Plot.
Open Scope nat_scope.
Open Scope string_scope.
Open Scope list_scope.

Definition title_of (p : plot) : string := fst (fst (announced p)).
Definition xlabel_of (p : plot) : string := snd (fst (announced p)).
Definition ylabel_of (p : plot) : string := snd (announced p).
(** "If true, the title and axis labels are displayed." *)
Definition displayed {M} (p : plot) (labels : bool) (before after : axes M) : Prop :=
  if labels then title after = Some (title_of p) /\ xlabel after = Some (xlabel_of p) /\ ylabel after = Some (ylabel_of p)
  else title after = title before /\ xlabel after = xlabel before /\ ylabel after = ylabel before.
(** A bar plot shows each value at a place of its own. *)
Definition one_bar_each (hs : list Q) (bs : list (nat * Q)) : Prop := map snd bs = hs /\ NoDup (map fst bs).
