(** C24: from which cache level on the outputs and the parts of the loss of a level are kept. *)
From Verif Require Import Base Cache CacheSpec KeptSpec LevelCache KeptLevelProofs.
Open Scope string_scope.
Open Scope Z_scope.

(** An output computed for the first time, of the sample as of new points, is kept exactly
    from the level normal on. *)
Theorem C24_outputs_partial :
  forall (D W L X O R : Type) (out_dual : D -> option X -> result O) (out_primal : W -> L -> option X -> result O)
         (root : L -> L) (s : level D W L X O R) (x : input) (z : Z) (o : O),
    c_level (l_cache s) = LInt z -> stored (l_cache s) (forward_key x false) = None ->
    out_dual (p_dual (l_params s)) (content s x) = Ok o ->
    fst (forward out_dual out_primal root s x false) = Ok o /\
    stored (l_cache (snd (forward out_dual out_primal root s x false))) (forward_key x false) =
      (if 2 <=? z then Some (Entry (LInt 2) false (VOut o)) else None).
Proof. intros D W L X O R. exact output_kept. Qed.
Print Assumptions C24_outputs_partial.

(** So is an output in the primal representation, with the roots of the eigenvalues it is
    computed from. *)
Theorem C24_primal_outputs_partial :
  forall (D W L X O R : Type) (out_dual : D -> option X -> result O) (out_primal : W -> L -> option X -> result O)
         (root : L -> L) (s : level D W L X O R) (x : input) (z : Z) (o : O),
    c_level (l_cache s) = LInt z -> stored (l_cache s) (forward_key x true) = None -> stored (l_cache s) "sqrt_vals" = None ->
    out_primal (p_primal (l_params s)) (root (p_vals (l_params s))) (content s x) = Ok o ->
    fst (forward out_dual out_primal root s x true) = Ok o /\
    stored (l_cache (snd (forward out_dual out_primal root s x true))) (forward_key x true) =
      (if 2 <=? z then Some (Entry (LInt 2) false (VOut o)) else None) /\
    stored (l_cache (snd (forward out_dual out_primal root s x true))) "sqrt_vals" =
      (if 2 <=? z then Some (Entry (LInt 2) false (VRoot (root (p_vals (l_params s))))) else None).
Proof. intros D W L X O R. exact primal_output_kept. Qed.
Print Assumptions C24_primal_outputs_partial.

(** The part of the loss on the original data, in either representation, is kept exactly
    from the level normal on. *)
Theorem C24_losses_partial :
  forall (D W L X O R : Type) (loss_original : bool -> result R) (s : level D W L X O R) (primal : bool) (z : Z) (r : R),
    let k := ("subloss_original_" ++ rep_name primal)%string in
    c_level (l_cache s) = LInt z -> stored (l_cache s) k = None -> loss_original primal = Ok r ->
    fst (read_original loss_original s primal) = Ok r /\
    stored (l_cache (snd (read_original loss_original s primal))) k =
      (if 2 <=? z then Some (Entry (LInt 2) false (VLoss r)) else None).
Proof. intros D W L X O R. exact loss_kept. Qed.
Print Assumptions C24_losses_partial.

(** So is the part of the loss on the projected data. *)
Theorem C24_projected_partial :
  forall (D W L X O R : Type) (loss_projected_dual : D -> result R) (loss_projected_primal : W -> result R)
         (s : level D W L X O R) (primal : bool) (z : Z) (r : R),
    let k := ("subloss_projected_" ++ rep_name primal)%string in
    c_level (l_cache s) = LInt z -> stored (l_cache s) k = None ->
    (if primal then loss_projected_primal (p_primal (l_params s)) else loss_projected_dual (p_dual (l_params s))) = Ok r ->
    fst (read_projected loss_projected_dual loss_projected_primal s primal) = Ok r /\
    stored (l_cache (snd (read_projected loss_projected_dual loss_projected_primal s primal))) k =
      (if 2 <=? z then Some (Entry (LInt 2) false (VLoss r)) else None).
Proof. intros D W L X O R. exact projected_kept. Qed.
Print Assumptions C24_projected_partial.

(** So outputs of new points are not kept from heavy on only, as documented: a level set to
    normal keeps them. *)
Theorem C24_outputs_refuted :
  In ("forward_oos_default_representation", 3) kept_from /\
  ~ (forall (D W L X O R : Type) (out_dual : D -> option X -> result O) (out_primal : W -> L -> option X -> result O)
            (root : L -> L) (s : level D W L X O R) (i : string) (z : Z),
       c_level (l_cache s) = LInt z -> stored (l_cache s) (forward_key (Object i) false) = None ->
       l_primal s = false -> z < 3 ->
       stored (l_cache (snd (forward out_dual out_primal root s (Object i) false))) (forward_key (Object i) false) = None).
Proof.
  split; [cbv; tauto|]. intros H.
  specialize (H nat nat nat nat nat nat (fun d x => Ok d) (fun w l x => Ok w) (fun l => l)
                (Level (init_cache (LStr "normal")) (Params 7 7 7)%nat false (fun _ => 5%nat)) "a" 2 eq_refl eq_refl eq_refl eq_refl).
  cbv in H. discriminate H.
Qed.
Print Assumptions C24_outputs_refuted.

(** Nor are the parts of the loss in the other representation kept at total only. *)
Theorem C24_losses_refuted :
  In ("Level_subloss_other_representation", 4) kept_from /\
  ~ (forall (D W L X O R : Type) (loss_original : bool -> result R) (s : level D W L X O R) (z : Z),
       let k := ("subloss_original_" ++ rep_name (negb (l_primal s)))%string in
       c_level (l_cache s) = LInt z -> stored (l_cache s) k = None -> z < 4 ->
       stored (l_cache (snd (read_original loss_original s (negb (l_primal s))))) k = None).
Proof.
  split; [cbv; tauto|]. intros H.
  specialize (H nat nat nat nat nat nat (fun _ => Ok 3%nat)
                (Level (init_cache (LStr "normal")) (Params 7 7 7)%nat false (fun _ => 5%nat)) 2 eq_refl eq_refl eq_refl).
  cbv in H. discriminate H.
Qed.
Print Assumptions C24_losses_refuted.

Example C24_level_nontrivial :
  let s := fun l => Level (init_cache (LStr l)) (Params 7 7 7)%nat false (fun _ => 5%nat) : level nat nat nat nat nat nat in
  let after := fun l x => stored (l_cache (snd (forward (fun d (x : option nat) => Ok (d + match x with Some n => n | None => 0 end)%nat)
                                                        (fun w l (x : option nat) => Ok w) (fun l => l) (s l) x false))) (forward_key x false) in
  after "normal" (Object "a") = Some (Entry (LInt 2) false (VOut 12%nat)) /\
  after "light" (Object "a") = None /\ after "light" Whole = None /\
  after "heavy" Whole = Some (Entry (LInt 2) false (VOut 7%nat)) /\
  let t := l_cache (snd (forward (fun d (x : option nat) => Ok d) (fun w l (x : option nat) => Ok (w * l)%nat) S (s "normal") Whole true)) in
  stored t (forward_key Whole true) = Some (Entry (LInt 2) false (VOut 56%nat)) /\ stored t "sqrt_vals" = Some (Entry (LInt 2) false (VRoot 8%nat)) /\
  let u := l_cache (snd (read_projected (fun d => Ok d) (fun w => Ok (S w)) (s "normal") true)) in
  stored u "subloss_projected_primal" = Some (Entry (LInt 2) false (VLoss 8%nat)).
Proof. repeat split; reflexivity. Qed.
