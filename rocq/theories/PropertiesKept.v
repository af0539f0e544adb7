(** C24 and C25: what a read keeps at each cache level, and the transforms a kernel uses when
    none or some are requested. *)
From Verif Require Import Base Cache CacheSpec KeptSpec KeptProofs TransformTree Beautify BeautifySpec BeautifyProofs.
Open Scope string_scope.
Open Scope Z_scope.

(** A value read for the first time is kept exactly from the documented level of its kind
    on, under that level, and nothing else changes. *)
Theorem C24_kinds_partial :
  forall (V : Type) (c : cache V) (k kind : string) (n z : Z) (v : V),
    In (kind, n) kept_from -> c_level c = LInt z -> stored c k = None ->
    fst (get c k (Ok v) (read_as kind)) = Ok v /\
    stored (snd (get c k (Ok v) (read_as kind))) k = (if n <=? z then Some (Entry (LInt n) false v) else None) /\
    forall k', k' <> k -> stored (snd (get c k (Ok v) (read_as kind))) k' = stored c k'.
Proof. exact read_kept. Qed.
Print Assumptions C24_kinds_partial.

Example C24_kinds_nontrivial :
  In ("sample_K", 1) kept_from /\
  stored (snd (get (init_cache (LStr "light")) "K" (Ok 5%nat) (read_as "sample_K"))) "K" = Some (Entry (LInt 1) false 5%nat) /\
  stored (snd (get (init_cache (LStr "light")) "K" (Ok 5%nat) (read_as "transform_oos_statistics_default"))) "K" = None.
Proof. split; [left; reflexivity|]. split; reflexivity. Qed.

(** A kernel asked for no transform uses its defaults; asked for a list, and without a
    transform of its own, what the list is reduced to, less a leading normalisation if it is
    already normalised. *)
Theorem C25_kernel :
  forall (k : kclass) (default : list cls),
    get_transform k default None = (Ok default, None) /\
    (forall l, kc_required k = None ->
       snd (get_transform k default (Some l)) = Some l /\
       (Forall recognised l ->
          fst (get_transform k default (Some l)) =
          Ok (without_leading_sphere (kc_normalized k) (kept_late 0 None (flat_map meaning l)))) /\
       (~ Forall recognised l -> fst (get_transform k default (Some l)) = Err ENameError)).
Proof. exact get_transform_is. Qed.
Print Assumptions C25_kernel.

Example C25_kernel_nontrivial :
  exists k, kc_required k = None /\ kc_normalized k = true /\
    fst (get_transform k [MeanCenter] None) = Ok [MeanCenter] /\
    fst (get_transform k [MeanCenter] (Some [RName "normalize"; RName "center"])) = Ok [MeanCenter].
Proof. exists (KClass None true). repeat split; reflexivity. Qed.
