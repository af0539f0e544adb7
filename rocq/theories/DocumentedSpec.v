(** The options of the documentation. *)
From Verif Require Import Base Classes Abstract AbstractSpec Options.
Open Scope nat_scope.
Open Scope string_scope.
Open Scope list_scope.

(** What the class documentation announces ([:param name:] in the docstrings, which
    [extend_docstring] adds to the ones of the derived classes): the names, and the default if one is
    announced.  Numbers are spelled as in the code (1, 1. and 1.0 are the same number).  Not listed:
    [kernel_type], [kernel_class] and [distance], which choose the class itself (see [Abstract.v]). *)
Definition documentation : list (string * list (string * option value)) :=
  [ ("_KPCA", [("prune_small_vals", None)]);
    ("_Level", [("eta", Some (VOther "1.0")); ("representation", Some (VOther "'dual'"))]);
    ("_View", [("dim_output", Some VNone); ("representation", Some (VOther "'dual'")); ("weight", Some VNone); ("hidden", Some VNone); ("param_trainable", Some VFalse)]);
    ("LSSVM", [("gamma", Some (VOther "1.0"))]);
    ("View", [("bias", None); ("bias_trainable", Some VFalse)]);
    ("Cache", [("cache_level", Some (VOther "'normal'"))]);
    ("Logger", [("logging_level", Some VNone)]);
    ("Sample", [("sample", Some VNone); ("sample_trainable", Some VFalse); ("num_sample", Some (VOther "1")); ("dim_input", Some (VOther "1"));
                ("idx_sample", Some VNone); ("prop_sample", Some VNone); ("sample_transform", None)]);
    ("Kernel", [("kernel_transform", Some (VOther "[]"))]);
    ("Nystrom", [("dim", Some VNone); ("base_kernel_type", Some (VOther "utils.DEFAULT_KERNEL_TYPE")); ("base_kernel_transform", Some (VOther "[]")); ("base_kernel", Some VNone)]);
    ("Exponential", [("squared", Some VTrue)]);
    ("ExplicitNN", [("encoder", None); ("decoder", None); ("networks_trainable", Some VTrue); ("recon_loss_fun", Some (VOther "torch.nn.MSELoss()"))]);
    ("ImplicitNN", [("network", None)]);
    ("_Distance", [("sigma", Some VNone); ("sigma_trainable", Some VFalse)]);
    ("Minkowski", [("minkowski_order", None)]);
    ("Polynomial", [("alpha", Some (VOther "2.0")); ("beta", Some (VOther "1.0")); ("alpha_trainable", Some VFalse); ("beta_trainable", Some VFalse)]);
    ("Sigmoid", [("a", Some (VOther "1.0")); ("b", Some (VOther "0.0")); ("params", Some VFalse)]);
    ("SkewedChi2", [("p", Some (VOther "0.0")); ("p_trainable", Some VFalse)]);
    ("Hat", [("lag", Some (VOther "1")); ("lag_trainable", Some VFalse)]);
    ("Indicator", [("lag", Some (VOther "1")); ("gamma", Some VNone); ("lag_trainable", Some VFalse); ("gamma_trainable", Some VFalse)]);
    ("RandomFeatures", [("num_weights", Some (VOther "1")); ("weights", Some VNone); ("weights_trainable", Some VFalse); ("sigma", Some (VOther "1.0")); ("sigma_trainable", Some VFalse)]) ].
Definition documented (c n : string) (d : option value) : Prop := exists l, In (c, l) documentation /\ In (n, d) l.

(** The announced names that stand for another name in the code: [level_trainable]
    (level/_View.py:55), [network_trainable] (explicit_nn.py:46) and [params_trainable]
    (sigmoid.py:46). *)
Definition misnamed : list (string * string) := [("_View", "param_trainable"); ("ExplicitNN", "networks_trainable"); ("Sigmoid", "params")].
(** The dimensions of a sample are announced to be one by default. *)
Definition dimension (n : string) : Prop := n = "num_sample" \/ n = "dim_input".
(** The options of two callers are the same except perhaps for [n]. *)
Definition same_but (n : string) (kw kw' : dict value) : Prop := forall m, m <> n -> dget kw m = dget kw' m.
(** [c] and the classes that come after it, which are those that it extends. *)
Fixpoint from (c : string) (mro : cls) : cls := match mro with [] => [] | x :: rest => if String.eqb x c then mro else from c rest end.
