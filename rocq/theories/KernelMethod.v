(** Smoothing a function over its own domain by a kernel.  Definitions only. *)
From Verif Require Import Base RVec Method.
Open Scope R_scope.

Section KernelMethod.
  Variable topk : vec -> nat -> list nat.
  (** The values of the kernel of [factory(kernel_type, sample=domain, **kwargs)]. *)
  Variable k : vec -> vec -> R.

  (** [k.K] (_base_kernel.py:256-265): a row for every point of the sample. *)
  Definition kernel_rows (domain : mat) : mat := map (fun x => map (k x) domain) domain.
  (** [kernel_smoother] (_smoother.py:73-108) and [kernel_knn] (_knn.py:57-88). *)
  Definition kernel_smoother (domain observations : mat) (num : option Z) : result (list (option vec)) :=
    if negb (Nat.eqb (List.length domain) (List.length observations)) then Err EAssertionError
    else smoother topk (List.length domain) (kernel_rows domain) observations num.
  Definition kernel_knn (domain observations : mat) (num : Z) : result mat :=
    if negb (Nat.eqb (List.length domain) (List.length observations)) then Err EAssertionError
    else knn topk (List.length domain) (map (map Ropp) (kernel_rows domain)) observations num.
End KernelMethod.
