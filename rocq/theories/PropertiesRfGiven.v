(** Property theorems C87, continued: random features constructed with their
    weights, along every history. *)
From Verif Require Import Base Cache CacheSpec ParamKernel ParamKernelInst ParamKernelInstSpec RfGivenSpec RfGivenProofs.

(** As long as the number of weights is not assigned, no reading whatsoever gives a
    value, at any level of the cache, after any readings, resets and assignments of
    weights or bandwidths. *)
Theorem C87_no_reading_refuted :
  forall (W Sg X Mx Pi : Type) (fits : W -> bool) (act : W -> nat -> Sg -> X -> Mx) (mul : Mx -> Mx -> Mx)
         (pinv : W -> Pi) (inv : nat -> Pi -> Sg -> Mx -> Mx) (data : nat -> X) (sample : X) (w : W) (sg : Sg)
         (level : lvl) (os : list (pop Mx (rf_op W Sg))),
    known_level (Some level) -> number_not_assigned os ->
    Forall reading_fails
           (fst (rf_run fits act mul pinv inv data sample (new_param (rf_new (GivenWeights w) sg) level) os)).
Proof. exact @given_run. Qed.
Print Assumptions C87_no_reading_refuted.

(** Once the number is assigned and the kernel reset, every later reading shows the
    weights and bandwidth in force, in particular those assigned after the number. *)
Theorem C87_after_number_partial :
  forall (W Sg X Mx Pi : Type) (nrows : W -> nat) (fits : W -> bool) (act : W -> nat -> Sg -> X -> Mx)
         (mul : Mx -> Mx -> Mx) (pinv : W -> Pi) (inv : nat -> Pi -> Sg -> Mx -> Mx) (data : nat -> X) (sample : X)
         (w : W) (sg : Sg) (level : lvl) (os : list (pop Mx (rf_op W Sg)))
         (n : nat) (w' : W) (os' : list (pop Mx (rf_op W Sg))),
    known_level (Some level) -> number_not_assigned os -> nrows w' = n ->
    let s := snd (rf_run fits act mul pinv inv data sample (new_param (rf_new (GivenWeights w) sg) level) os) in
    rf_history nrows fits (RFPar w' (Some n) (rf_sigma (p_par s))) os' ->
    Forall (rf_shows nrows act mul pinv inv data sample)
           (fst (rf_run fits act mul pinv inv data sample s (PAssign (RFNum n w') :: PReset true :: os'))).
Proof. exact @given_then_number. Qed.
Print Assumptions C87_after_number_partial.

(** Weights are lists of slopes; the feature map is [sg * x] times the sum of the
    slopes plus their number.  The slopes [[2; 3]] of the constructor only become
    usable by assigning a number and then the slopes again. *)
Example C87_nontrivial :
  let act (w : list nat) (n s x : nat) := (s * x * list_sum w + n)%nat in
  let os := [PReadPhi; PReadK; PLevel (Some (LStr "total")); PReadphi (Some 4%nat); PAssign (RFWeights [5; 6]%nat);
             PReadPhi; PPreimage 3%nat] in
  let os' := [PReadPhi; PAssign (RFWeights [2; 3]%nat); PReset true; PReadPhi; PReadK; PPreimage 3%nat] in
  let run := rf_run (fun _ => true) act Nat.mul (@list_sum) (fun n p s m => n + p * s * m)%nat (fun x => x) 1%nat in
  let s0 := new_param (rf_new (GivenWeights [2; 3]%nat) 1%nat) (LStr "light") in
  number_not_assigned os /\
  map snd (fst (run s0 os)) =
  [POut (Err EAttributeError); POut (Err EAttributeError); PUnit (Ok tt); POut (Err EAttributeError); PUnit (Ok tt);
   POut (Err EAttributeError); POut (Err EAttributeError)] /\
  rf_history (@List.length nat) (fun _ => true) (RFPar [1; 1]%nat (Some 2%nat) 1%nat) os' /\
  map snd (fst (run (snd (run s0 os)) (PAssign (RFNum 2%nat [1; 1]%nat) :: PReset true :: os'))) =
  [PUnit (Ok tt); PUnit (Ok tt); POut (Ok 4%nat); PUnit (Ok tt); PUnit (Ok tt); POut (Ok 7%nat); POut (Ok 49%nat);
   POut (Ok 17%nat)].
Proof.
  split; [repeat (apply Forall_cons; [cbn; auto 8|]); apply Forall_nil|]. split; [vm_compute; reflexivity|].
  split; [cbn; auto 20|vm_compute; reflexivity].
Qed.
