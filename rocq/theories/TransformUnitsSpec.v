(** What a change of the units of measure is: specification. *)
From Verif Require Import Base RVec.
Open Scope R_scope.

(** [m'] holds the same observations as [m] with column [j] measured in another unit:
    a value [v] reads [a j * v + b j] (degrees Fahrenheit instead of Celsius). *)
Definition other_units (d : nat) (a b : nat -> R) (m m' : mat) : Prop :=
  Forall2 (fun r r' => forall j, (j < d)%nat -> nth j r' 0 = a j * nth j r 0 + b j) m m'.

(** A row after standardisation, and after rescaling to the unit interval, by the
    statistics of the sample. *)
Definition standard_value (c : vec) (v : R) : R := (v - mean c) / Rmax (std c) EPS.
Definition rescaled_value (c : vec) (v : R) : R := (v - lmin c) / Rmax (lmax c - lmin c) EPS.
