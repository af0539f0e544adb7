(** From which cache level on each kind of value is documented to be kept: cache.py:45-53
    (the kernel matrix and the statistics of the sample from light on, the statistics of new
    points from normal on, their matrices from heavy on, everything at total) and, for the
    other names, the table the documentation of the cache refers to. *)
From Verif Require Import Base Cache Beautify.
Open Scope string_scope.
Open Scope Z_scope.

Definition kept_from : list (string * Z) :=
  [ ("sample_K", 1); ("sample_C", 1); ("sample_phi", 1);
    ("transform_sample_statistics_default", 1); ("transform_sample_statistics_nondefault", 1);
    ("transform_oos_statistics_default", 2); ("transform_oos_statistics_nondefault", 3);
    ("transform_sample_data_default", 1); ("transform_sample_data_nondefault", 2);
    ("transform_oos_data_level_default", 3); ("transform_oos_data_level_nondefault", 4);
    ("forward_sample_default_representation", 1); ("forward_sample_other_representation", 2);
    ("forward_oos_default_representation", 3); ("forward_oos_other_representation", 4);
    ("sample_transform", 0); ("kernel_explicit_transform", 0); ("kernel_implicit_transform", 0);
    ("Level_I_default_representation", 2); ("Level_I_other_representation", 4);
    ("KPCA_total_variance_default_representation", 2); ("KPCA_total_variance_other_representation", 4);
    ("Level_subloss_default_representation", 2); ("Level_subloss_other_representation", 4);
    ("PPCA_B_primal", 2); ("PPCA_B_dual", 2); ("PPCA_Inv_primal", 2); ("PPCA_Inv_dual", 2);
    ("Wasserstein_kernel_dist", 2); ("_poly_explicit_fun", 1); ("_rsf_piv", 2); ("_nystrom_elements", 1) ].

(** A read that asks for the level of a given kind of value. *)
Definition read_as (kind : string) : get_args := GetArgs (KStr kind) "normal" false false false false.

(** A kernel that is normalised by itself skips a leading normalisation. *)
Definition without_leading_sphere (normalized : bool) (cs : list cls) : list cls :=
  match cs with Sphere :: cs' => if normalized then cs' else cs | _ => cs end.
