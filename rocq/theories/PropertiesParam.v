(** Property theorems C21, C22, C86, C87: kernels with parameters. *)
From Verif Require Import Base Cache CacheSpec ParamKernel ParamKernelSpec ParamKernelInst ParamKernelInstSpec ParamKernelInstProofs.
Open Scope string_scope.

(** * C21 *)

(** The sample features, the kernel matrix, the features of a new object and the
    preimages all keep showing the old weights [w] after the assignment of [w'];
    only features of the sample asked for anew are right. *)
Theorem C21_new_weights_refuted :
  forall (W Sg X Mx Pi : Type) (fits : W -> bool) (act : W -> nat -> Sg -> X -> Mx) (mul : Mx -> Mx -> Mx)
         (pinv : W -> Pi) (inv : nat -> Pi -> Sg -> Mx -> Mx) (data : nat -> X) (sample : X)
         (n : nat) (w : W) (sg : Sg) (w' : W),
    fits w' = true ->
    let s := new_param (rf_new (GivenNumber n w) sg) (LStr "normal") in
    map snd (fst (rf_run fits act mul pinv inv data sample s
                    [PReadPhi; PReadK; PAssign (RFWeights w'); PReadPhi; PReadK; PReadphi None])) =
    [POut (Ok (act w n sg sample)); POut (Ok (mul (act w n sg sample) (act w n sg sample))); PUnit (Ok tt);
     POut (Ok (act w n sg sample)); POut (Ok (mul (act w n sg sample) (act w n sg sample)));
     POut (Ok (act w' n sg sample))].
Proof. exact @rf_stale. Qed.
Print Assumptions C21_new_weights_refuted.

Theorem C21_new_weights_out_of_sample_refuted :
  forall (W Sg X Mx Pi : Type) (fits : W -> bool) (act : W -> nat -> Sg -> X -> Mx) (mul : Mx -> Mx -> Mx)
         (pinv : W -> Pi) (inv : nat -> Pi -> Sg -> Mx -> Mx) (data : nat -> X) (sample : X)
         (n : nat) (w : W) (sg : Sg) (w' : W) (x : nat) (m : Mx),
    fits w' = true ->
    let s := new_param (rf_new (GivenNumber n w) sg) (LStr "normal") in
    map snd (fst (rf_run fits act mul pinv inv data sample s
                    [PReadphi (Some x); PPreimage m; PAssign (RFWeights w'); PReadphi (Some x); PPreimage m;
                     PAssign (RFStep w'); PPreimage m])) =
    [POut (Ok (act w n sg (data x))); POut (Ok (inv n (pinv w) sg m)); PUnit (Ok tt);
     POut (Ok (act w n sg (data x))); POut (Ok (inv n (pinv w) sg m));
     PUnit (Ok tt); POut (Ok (inv n (pinv w) sg m))].
Proof. exact @rf_stale_oos. Qed.
Print Assumptions C21_new_weights_out_of_sample_refuted.

(** Even after a full reset the features are scaled by the old number of weights. *)
Theorem C21_number_of_weights_refuted :
  forall (W Sg X Mx Pi : Type) (fits : W -> bool) (act : W -> nat -> Sg -> X -> Mx) (mul : Mx -> Mx -> Mx)
         (pinv : W -> Pi) (inv : nat -> Pi -> Sg -> Mx -> Mx) (data : nat -> X) (sample : X)
         (n : nat) (w : W) (sg : Sg) (w' : W) (level : lvl),
    known_level (Some level) -> fits w' = true ->
    let s := new_param (rf_new (GivenNumber n w) sg) level in
    map snd (fst (rf_run fits act mul pinv inv data sample s [PAssign (RFWeights w'); PReset true; PReadphi None])) =
    [PUnit (Ok tt); PUnit (Ok tt); POut (Ok (act w' n sg sample))].
Proof. exact @rf_wrong_scale. Qed.
Print Assumptions C21_number_of_weights_refuted.

(** Along every history in which weights are replaced by as many weights and the
    kernel is reset right after, every reading shows the weights in force. *)
Theorem C21_replace_and_reset_partial :
  forall (W Sg X Mx Pi : Type) (nrows : W -> nat) (fits : W -> bool) (act : W -> nat -> Sg -> X -> Mx)
         (mul : Mx -> Mx -> Mx) (pinv : W -> Pi) (inv : nat -> Pi -> Sg -> Mx -> Mx) (data : nat -> X) (sample : X)
         (n : nat) (w : W) (sg : Sg) (level : lvl) (os : list (pop Mx (rf_op W Sg))),
    nrows w = n -> known_level (Some level) ->
    rf_history nrows fits (rf_new (GivenNumber n w) sg) os ->
    Forall (rf_shows nrows act mul pinv inv data sample)
           (fst (rf_run fits act mul pinv inv data sample (new_param (rf_new (GivenNumber n w) sg) level) os)).
Proof. exact @rf_careful_run. Qed.
Print Assumptions C21_replace_and_reset_partial.

(** Weights as lists of numbers, one per row; the "feature map" adds them up. *)
Example C21_nontrivial :
  let act (w : list nat) (n : nat) (sg x : nat) := (list_sum w + 10 * n + sg + x)%nat in
  let os := [PReadPhi; PAssign (RFWeights [7; 8]); PReset true; PReadK; PAssign (RFSigma 5); PReadphi (Some 3);
             PAssign (RFNum 1 [9]); PReset true; PPreimage 4; PReadphi (Some 3)]%nat in
  rf_history (@List.length nat) (fun _ => true) (rf_new (GivenNumber 2 [1; 2]) 0)%nat os /\
  map snd (fst (rf_run (fun _ => true) act Nat.mul list_sum (fun (n p s m : nat) => p + m)%nat (fun x => x) 5%nat
                 (new_param (rf_new (GivenNumber 2 [1; 2]) 0)%nat (LStr "total")) os)) =
  [POut (Ok 28); PUnit (Ok tt); PUnit (Ok tt); POut (Ok 1600); PUnit (Ok tt); POut (Ok 43);
   PUnit (Ok tt); PUnit (Ok tt); POut (Ok 13); POut (Ok 27)]%nat.
Proof. cbv zeta. split; [vm_compute; tauto|vm_compute; reflexivity]. Qed.

(** * C22 *)

(** Assigning a tensor to the degree changes the offset instead. *)
Theorem C22_degree_assignment_refuted :
  forall (F X Mx : Type) (natural rootable : F -> bool) (pfeat : F -> F -> X -> Mx) (pker : F -> F -> X -> X -> Mx)
         (gram : Mx -> Mx) (trainable : bool) (data : nat -> X) (sample : X)
         (s : pstate (poly_par F) Mx (F * F)) (v : F),
    let step := poly_step natural rootable pfeat pker gram trainable data sample in
    fst (step s (PAssign (PolyAlpha (AsTensor v)))) = PUnit (Ok tt) /\
    p_par (snd (step s (PAssign (PolyAlpha (AsTensor v))))) = PolyPar (poly_alpha (p_par s)) v.
Proof. exact @poly_assign_tensor. Qed.
Print Assumptions C22_degree_assignment_refuted.

(** A plain number is rejected for the degree, and anything for the offset. *)
Theorem C22_number_assignment_refuted :
  forall (F X Mx : Type) (natural rootable : F -> bool) (pfeat : F -> F -> X -> Mx) (pker : F -> F -> X -> X -> Mx)
         (gram : Mx -> Mx) (trainable : bool) (data : nat -> X) (sample : X)
         (s : pstate (poly_par F) Mx (F * F)) (v : F),
    let step := poly_step natural rootable pfeat pker gram trainable data sample in
    fst (step s (PAssign (PolyAlpha (AsNumber v)))) = PUnit (Err ETypeError) /\
    p_par (snd (step s (PAssign (PolyAlpha (AsNumber v))))) = p_par s.
Proof. exact @poly_assign_number. Qed.
Print Assumptions C22_number_assignment_refuted.

Theorem C22_offset_assignment_refuted :
  forall (F X Mx : Type) (natural rootable : F -> bool) (pfeat : F -> F -> X -> Mx) (pker : F -> F -> X -> X -> Mx)
         (gram : Mx -> Mx) (trainable : bool) (data : nat -> X) (sample : X)
         (s : pstate (poly_par F) Mx (F * F)) (v : poly_value F),
    poly_step natural rootable pfeat pker gram trainable data sample s (PAssign (PolyBeta v)) =
    (PUnit (Err EAttributeError), s).
Proof. exact @poly_assign_beta. Qed.
Print Assumptions C22_offset_assignment_refuted.

(** After the offset has been changed that way, the features and the kernel matrix
    still are those of the old offset, while the kernel function uses the new one. *)
Theorem C22_feature_map_refuted :
  forall (F X Mx : Type) (natural rootable : F -> bool) (pfeat : F -> F -> X -> Mx) (pker : F -> F -> X -> X -> Mx)
         (gram : Mx -> Mx) (trainable : bool) (data : nat -> X) (sample : X) (a b v : F),
    trainable = false -> natural a = true -> rootable b = true ->
    let s := new_param (PolyPar a b) (LStr "normal") in
    map snd (fst (poly_run natural rootable pfeat pker gram trainable data sample s
                    [PReadPhi; PAssign (PolyAlpha (AsTensor v)); PReadPhi; PReadK; PReadk None])) =
    [POut (Ok (pfeat a b sample)); PUnit (Ok tt); POut (Ok (pfeat a b sample));
     POut (Ok (gram (pfeat a b sample))); POut (Ok (pker a v sample sample))].
Proof. exact @poly_stale. Qed.
Print Assumptions C22_feature_map_refuted.

(** Every reading shows the degree and offset in force when the degree is trainable,
    or when each assignment is followed by a full reset. *)
Theorem C22_readings_follow_parameters_partial :
  forall (F X Mx : Type) (natural rootable : F -> bool) (pfeat : F -> F -> X -> Mx) (pker : F -> F -> X -> X -> Mx)
         (gram : Mx -> Mx) (trainable : bool) (data : nat -> X) (sample : X) (a b : F) (level : lvl)
         (os : list (pop Mx (poly_op F))),
    known_level (Some level) -> levels_known os ->
    trainable = true \/ reset_after_assignment os ->
    Forall (poly_shows natural rootable pfeat pker gram data sample)
           (fst (poly_run natural rootable pfeat pker gram trainable data sample (new_param (PolyPar a b) level) os)).
Proof. exact @poly_run_shows. Qed.
Print Assumptions C22_readings_follow_parameters_partial.

Example C22_nontrivial :
  let os := [PReadPhi; PAssign (PolyAlpha (AsTensor 7)); PReset true; PReadPhi; PReadK]%nat in
  levels_known os /\ reset_after_assignment os /\
  map snd (fst (poly_run (fun _ => true) (fun _ => true) (fun a b x => 10 * a + 3 * b + x)%nat
             (fun a b x y => 0%nat) S false (fun x => x) 1%nat (new_param (PolyPar 2 3)%nat (LStr "normal")) os)) =
  [POut (Ok 30); PUnit (Ok tt); PUnit (Ok tt); POut (Ok 42); POut (Ok 43)]%nat.
Proof. split; [repeat constructor|]. split; [repeat split|vm_compute; reflexivity]. Qed.

(** * C86 *)

(** For every kernel whose setters reset the cache and assign. *)
Theorem C86_setters_take_effect :
  forall (T X Mx : Type) (explicit : T -> bool) (feat : T -> X -> result Mx) (kfun : T -> X -> X -> result Mx)
         (gram : Mx -> Mx) (data : nat -> X) (sample : X) (t : T) (level : lvl) (os : list (pop Mx (reset_op T))),
    known_level (Some level) -> levels_known os ->
    Forall (shows_parameters explicit false (fun t (_ : option Empty_set) x => feat t x) kfun gram no_aux no_pre
              data sample)
           (fst (reset_run explicit feat kfun gram data sample (new_param t level) os)).
Proof. exact @reset_run_shows. Qed.
Print Assumptions C86_setters_take_effect.

(** The hat kernel on integers: lag + 1 - |x - y|, cut at 0. *)
Example C86_nontrivial :
  let hat (lag x y : Z) := (Ok (Z.max 0 (lag + 1 - Z.abs (x - y))))%Z in
  let os := [PReadK; PReadk (Some 3%nat); PAssign (Setter false (fun _ => 5%Z)); PReadK; PReadk (Some 3%nat)] in
  levels_known os /\
  map snd (fst (reset_run (fun _ => false) (fun _ _ => Err EExplicit) hat (fun m => m) Z.of_nat 1%Z
                 (new_param 1%Z (LStr "total")) os)) =
  [POut (Ok 2%Z); POut (Ok 0%Z); PUnit (Ok tt); POut (Ok 6%Z); POut (Ok 4%Z)].
Proof. split; [repeat constructor|vm_compute; reflexivity]. Qed.

(** * C87 *)

(** Nothing can be computed from weights given to the constructor. *)
Theorem C87_given_weights_refuted :
  forall (W Sg X Mx Pi : Type) (fits : W -> bool) (act : W -> nat -> Sg -> X -> Mx) (mul : Mx -> Mx -> Mx)
         (pinv : W -> Pi) (inv : nat -> Pi -> Sg -> Mx -> Mx) (data : nat -> X) (sample : X) (w : W) (sg : Sg),
    let s := new_param (rf_new (GivenWeights w) sg) (LStr "normal") in
    map snd (fst (rf_run fits act mul pinv inv data sample s [PReadPhi; PReadK; PReadphi None; PReadk None])) =
    [POut (Err EAttributeError); POut (Err EAttributeError); POut (Err EAttributeError); POut (Err EAttributeError)].
Proof. exact @rf_given_weights_fail. Qed.
Print Assumptions C87_given_weights_refuted.
