(** The vocabulary of the properties of [PropertiesLipschitz]. *)
From Verif Require Import Base RVec KernelR.
Open Scope R_scope.

(** How much a kernel value can change, per bandwidth of change of the distance. *)
Definition sensitivity (k : kern) : R :=
  match k with
  | Epanechnikov => 2
  | Quartic => 4
  | Triweight => 6
  | Tricube => 9
  | Triangular | Logistic | Exponential _ => 1
  | Silverman => 2
  | Uniform => 0
  end.
(** The same, per relative change of the bandwidth. *)
Definition bandwidth_sensitivity (k : kern) : R :=
  match k with
  | Epanechnikov => 2
  | Quartic => 4
  | Triweight => 6
  | Tricube => 9
  | Triangular => 1
  | Exponential squared => if squared then 3 else 1
  | Logistic => 4
  | Silverman => 2
  | Uniform => 0
  end.
Definition continuous_kernel (k : kern) : Prop := k <> Uniform.
(** What a dual model computes from the kernel values of a point with its sample. *)
Definition weighted (alpha values : list R) : R := sum (zipw Rmult alpha values).
Definition total (alpha : list R) : R := sum (map Rabs alpha).
