(** Pre-images by a kernel, and the storage used by the iterations.  Definitions only. *)
From Verif Require Import Base RVec Method Sample.
Open Scope R_scope.

(** [implicit_preimage(k_image, method='knn')] (_base_kernel.py:304-345) and
    [explicit_preimage(phi_image, method='knn')] (kernel.py:347-390), with
    [Phi] the features of the current sample. *)
Definition implicit_knn (topk : vec -> nat -> list nat) (cols : nat) (k_image sample : mat) (num : Z) : result mat :=
  knn topk cols (map (map Ropp) k_image) sample num.
Definition implicit_smoother (topk : vec -> nat -> list nat) (cols : nat) (k_image sample : mat) (num : option Z)
  : result (list (option vec)) :=
  smoother topk cols k_image sample num.
Definition explicit_knn (topk : vec -> nat -> list nat) (phi_image phi sample : mat) (num : Z) : result mat :=
  implicit_knn topk (length phi) (gram phi_image phi) sample num.

(** [iterative] (_iterative.py:12-62) with its storage: [Variable(x0)] is a view of the
    storage [castf] gives, and the optimiser writes each step into it; [x.data] is that
    storage again. *)
Section Storage.
  Context {F : Type}.
  Fixpoint iterate_heap (step : nat -> list (list F) -> result (list (list F))) (stop : nat -> bool) (i num_iter a : nat) (h : heap)
    : result unit * @heap F :=
    match num_iter with
    | O => (Ok tt, h)
    | S n =>
        match step i (load h a) with
        | Err e => (Err e, h)
        | Ok x => let h' := store h a x in if stop i then (Ok tt, h') else iterate_heap step stop (S i) n a h'
        end
    end.
  Definition iterative (step : nat -> list (list F) -> result (list (list F))) (stop : nat -> bool) (num_iter : nat)
    (h : heap) (x0 : passed) : result nat * heap :=
    let '(a, h1) := castf_addr h x0 in
    match iterate_heap step stop 0 num_iter a h1 with
    | (Ok _, h2) => (Ok a, h2)
    | (Err e, h2) => (Err e, h2)
    end.
End Storage.
