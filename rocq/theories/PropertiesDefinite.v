(** Property theorems C172: kernel matrices of distinct points. *)
From Verif Require Import Base RVec RVecProofs KernelR KernelRSpec Poly DefiniteSpec DefiniteExamples.
Open Scope R_scope.

(** * C172 *)

(** With the Gaussian, Laplacian, logistic and Manhattan exponential kernels, the matrix of a
    sample is positive definite exactly when its points are distinct, and then any targets are
    reproduced by exactly one choice of coefficients. *)
Theorem C172_distance :
  forall (dim : nat) (k : kern) (d : distance) (sigma : R), telling k d -> 0 < sigma ->
  exists f, (forall x y, kvalue k d sigma x y = Ok (Fin (f x y))) /\
    forall s : mat, Forall (fun x => length x = dim) s ->
      (definite (matrix_of f s) <-> NoDup s) /\
      (NoDup s -> forall targets : vec, length targets = length s ->
         exists c, reproduces (matrix_of f s) c targets /\ forall c', reproduces (matrix_of f s) c' targets -> c' = c).
Proof. exact telling_matrices. Qed.
Print Assumptions C172_distance.

(** With the polynomial kernel, as long as there is at most one point more than the degree. *)
Theorem C172_polynomial :
  forall (dim degree : nat) (beta : R) (s : mat), 0 < beta -> rect dim s -> (length s <= S degree)%nat ->
    (definite (poly_implicit degree beta s s) <-> NoDup s) /\
    (NoDup s -> forall targets : vec, length targets = length s ->
       exists c, reproduces (poly_implicit degree beta s s) c targets /\
                 forall c', reproduces (poly_implicit degree beta s s) c' targets -> c' = c).
Proof. exact polynomial_matrices. Qed.
Print Assumptions C172_polynomial.

Theorem C172_polynomial_limit : ~ definite (poly_implicit 1 1 [[0]; [1]; [2]] [[0]; [1]; [2]]) /\ NoDup [[0]; [1]; [2]].
Proof. exact polynomial_limit. Qed.
Print Assumptions C172_polynomial_limit.

Example C172_nontrivial : telling Logistic Euclidean /\ telling (Exponential true) Euclidean /\ ~ telling (Exponential true) Manhattan /\
  NoDup [[0; 0]; [3; 4]] /\ Forall (fun x : vec => length x = 2%nat) [[0; 0]; [3; 4]].
Proof. split; [exact I|]. split; [exact I|]. split; [intros []|]. exact two_points. Qed.
