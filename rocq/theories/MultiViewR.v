(** Features, kernel and scores of a multi-view model, entry by entry
    ([kerch/level/multi_view/MultiView.py:171-222], [MVKPCA.py:23-30]).  Definitions only.

    The points are given view by view, as when a dictionary is passed.  Floating-point numbers
    are idealised as real numbers. *)
From Verif Require Import RVec.
Open Scope R_scope.

(** A view with the features of its kernel, its kappa and, for one component, the rows of the
    weights it reads. *)
Record rview (X : Type) : Type := RView { r_kappa : R; r_phi : X -> vec; r_weight : vec }.
Arguments RView {X}. Arguments r_kappa {X}. Arguments r_phi {X}. Arguments r_weight {X}.

Section Multi.
  Context {X : Type}.
  (** [View.phi], [View.k] (single_view/View.py:220-225), the kernel being that of its
      features. *)
  Definition view_phi (v : rview X) (x : X) : vec := map (fun a => sqrt (r_kappa v) * a) (r_phi v x).
  Definition view_k (v : rview X) (x y : X) : R := r_kappa v * dot (r_phi v x) (r_phi v y).

  (** [phi]: the features of the given views one after the other; [k]: the sum of their
      kernels (171-216). *)
  Definition multi_phi (known : list (rview X * X)) : vec := concat (map (fun p => view_phi (fst p) (snd p)) known).
  Definition multi_k (known : list (rview X * X)) (sample : rview X -> X) : R :=
    sum (map (fun p => view_k (fst p) (snd p) (sample (fst p))) known).
  (** [weights_by_name] (154-156) of the given views, for one component. *)
  Definition weights_by_name (known : list (rview X * X)) : vec := concat (map (fun p => r_weight (fst p)) known).
  (** [phi_known @ weight_known] (MVKPCA.py:24-30), one entry. *)
  Definition score (known : list (rview X * X)) : R := dot (multi_phi known) (weights_by_name known).
End Multi.
