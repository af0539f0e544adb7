(** Property theorems C49, C100, C101, C102, C103: histories of a Nystrom kernel. *)
From Verif Require Import Base NystromState NystromStateProofs.
Open Scope Z_scope.

(** * C49 *)

(** Whatever the history of selections, samples without selection, dimensions and
    readings, the points decomposed are the selected points. *)
Theorem C49_selection_partial :
  forall (Row P : Type) (rank : P -> list Row -> Z -> Z) (p : P) (rows : list Row) (dim : option Z) (level : nat)
    (os : list (nop Row P)),
    Forall (fun o => match o with NInit _ idx => idx = None | _ => True end) os ->
    exists s0, new p rows None dim level = Ok s0 /\ let s := nrun rank s0 os in
      (forall d, fst (phi rank s) = Ok d -> rows_at (n_rows s) (n_idx s) = Ok (d_rows d)) /\
      (forall d, fst (phi_oos rank s) = Ok d -> rows_at (n_rows s) (n_idx s) = Ok (d_rows d) /\ d_param d = b_param s).
Proof. exact @decomposed_points. Qed.
Print Assumptions C49_selection_partial.

(** A selection given together with the sample is applied twice: it raises as soon as it
    is not within its own length. *)
Theorem C49_selection_refuted :
  forall (Row P : Type) (rank : P -> list Row -> Z -> Z) (p : P) (rows : list Row) (idx : list nat) (dim : option Z)
    (level : nat) (s0 : nstate Row P), new p rows (Some idx) dim level = Ok s0 ->
    (exists i, In i idx /\ (List.length idx <= i)%nat) -> fst (phi rank s0) = Err EIndexError.
Proof. exact @selection_with_sample. Qed.
Print Assumptions C49_selection_refuted.

(** Selections that are permutations are undone. *)
Theorem C49_permutation_refuted :
  exists s0, new tt [10; 20; 30] (Some [1; 2; 0]%nat) None 2 = Ok s0 /\
    rows_at (n_rows s0) (n_idx s0) = Ok [20; 30; 10] /\
    fst (phi (fun _ _ k => k) s0) = Ok (Decomp tt [30; 10; 20] 3).
Proof. eexists. split; [reflexivity|]. split; reflexivity. Qed.
Print Assumptions C49_permutation_refuted.

Example C49_selection_nontrivial :
  Forall (fun o : nop Z unit => match o with NInit _ idx => idx = None | _ => True end)
    [NStochastic [2; 0]%nat; NSetDim 2; NPhi; NInit [7; 8; 9] None; NStochastic [1]%nat] /\
  (exists s0, new tt [10; 20; 30] None (Some 2) 2 = Ok s0 /\
     fst (phi (fun _ _ k => k) (nrun (fun _ _ k => k) s0 [NStochastic [2; 0]%nat])) = Ok (Decomp tt [30; 10] 2)) /\
  exists s0, new tt [10; 20; 30] (Some [2]%nat) None 2 = Ok s0.
Proof.
  split; [repeat constructor|]. split; [eexists; split; reflexivity|]. eexists. reflexivity.
Qed.

(** * C100 *)

(** Results are the same at all cache levels but the lowest. *)
Theorem C100_levels_partial :
  forall (Row P : Type) (rank : P -> list Row -> Z -> Z) (p : P) (rows : list Row) (idx : option (list nat)) (dim : option Z)
    (l1 l2 : nat) (os : list (nop Row P)), l1 <> 0%nat -> l2 <> 0%nat ->
    match new p rows idx dim l1, new p rows idx dim l2 with
    | Ok s, Ok t =>
        let s' := nrun rank s os in let t' := nrun rank t os in
        fst (phi rank s') = fst (phi rank t') /\ fst (phi_oos rank s') = fst (phi_oos rank t') /\
        fst (dim_feature rank s') = fst (dim_feature rank t')
    | Err e, Err e' => e = e'
    | _, _ => False
    end.
Proof. exact @level_irrelevant. Qed.
Print Assumptions C100_levels_partial.

(** Without cache there are no features, whatever the history. *)
Theorem C100_no_cache_refuted :
  forall (Row P : Type) (rank : P -> list Row -> Z -> Z) (p : P) (rows : list Row) (idx : option (list nat)) (dim : option Z)
    (s0 : nstate Row P) (os : list (nop Row P)), new p rows idx dim 0 = Ok s0 ->
    (forall d, fst (phi rank (nrun rank s0 os)) <> Ok d) /\ (forall d, fst (phi_oos rank (nrun rank s0 os)) <> Ok d).
Proof. exact @level_none. Qed.
Print Assumptions C100_no_cache_refuted.

Example C100_nontrivial :
  exists s0 s1, new tt [10; 20; 30] None None 0 = Ok s0 /\ new tt [10; 20; 30] None None 1 = Ok s1 /\
    fst (phi (fun _ _ k => k) s0) = Err ETypeError /\ fst (phi (fun _ _ k => k) s1) = Ok (Decomp tt [10; 20; 30] 3).
Proof. eexists _, _. repeat (split; [reflexivity|]). reflexivity. Qed.

(** * C101 *)

(** With the default dimension, any selection of fewer points raises. *)
Theorem C101_default_dimension_refuted :
  forall (Row P : Type) (rank : P -> list Row -> Z -> Z) (p : P) (rows : list Row) (level : nat) (idx : list nat),
    (List.length idx < List.length rows)%nat -> Forall (fun i => (i < List.length rows)%nat) idx ->
    exists s0, new p rows None None level = Ok s0 /\ fst (phi rank (stochastic s0 idx)) = Err EAssertionError /\
      fst (phi_oos rank (stochastic s0 idx)) = Err EAssertionError.
Proof. exact @subsampling_default. Qed.
Print Assumptions C101_default_dimension_refuted.

(** With a dimension of at most the number of points selected, the features are those of
    the points selected. *)
Theorem C101_small_dimension_partial :
  forall (Row P : Type) (rank : P -> list Row -> Z -> Z) (p : P) (rows : list Row) (level : nat) (idx : list nat) (k : Z),
    level <> 0%nat -> k <= Z.of_nat (List.length idx) -> Forall (fun i => (i < List.length rows)%nat) idx ->
    exists s0 d, new p rows None (Some k) level = Ok s0 /\ fst (phi rank (stochastic s0 idx)) = Ok d /\
      rows_at rows idx = Ok (d_rows d) /\ d_dim d = rank p (d_rows d) k.
Proof. exact @subsampling_small_dim. Qed.
Print Assumptions C101_small_dimension_partial.

Example C101_nontrivial :
  (List.length [2; 0]%nat < List.length [10; 20; 30])%nat /\
  Forall (fun i => (i < List.length [10; 20; 30])%nat) [2; 0]%nat /\ 2 <= Z.of_nat (List.length [2; 0]%nat).
Proof. split; [cbn; lia|]. split; [repeat constructor; cbn; lia|cbn; lia]. Qed.

(** * C102 *)

(** Once read, the features of the sample stay those of the former base kernel. *)
Theorem C102_sample_features_refuted :
  forall (Row P : Type) (rank : P -> list Row -> Z -> Z) (s s1 : nstate Row P) (d : decomp Row P) (p : P),
    phi rank s = (Ok d, s1) -> fst (phi rank (set_base_param s1 p)) = Ok d.
Proof. exact @base_change_stale. Qed.
Print Assumptions C102_sample_features_refuted.

(** Other features follow the base kernel, and so do those of the sample after a
    selection. *)
Theorem C102_other_features_partial :
  forall (Row P : Type) (rank : P -> list Row -> Z -> Z),
    (forall (s s1 : nstate Row P) (p : P) (d : decomp Row P), fst (phi_oos rank (set_base_param s1 p)) = Ok d -> d_param d = p) /\
    (forall (s : nstate Row P) (p : P) (idx : list nat) (d : decomp Row P),
       fst (phi rank (stochastic (set_base_param s p) idx)) = Ok d -> d_param d = p).
Proof. intros Row P rank. exact (conj (base_change_oos rank) (base_change_selected rank)). Qed.
Print Assumptions C102_other_features_partial.

Example C102_nontrivial :
  exists s s1 d, new 1 [10; 20; 30] None None 2 = Ok s /\ phi (fun _ _ k => k) s = (Ok d, s1) /\ d_param d = 1 /\
    exists d', fst (phi_oos (fun _ _ k => k) (set_base_param s1 5)) = Ok d' /\ d_param d' = 5.
Proof. eexists _, _, _. split; [reflexivity|]. split; [reflexivity|]. split; [reflexivity|]. eexists. split; reflexivity. Qed.

(** * C103 *)

(** The announced dimension is the number of features, when no dimension is requested. *)
Theorem C103_default_dimension_partial :
  forall (Row P : Type) (rank : P -> list Row -> Z -> Z) (p : P) (rows : list Row) (level : nat),
    (forall p rows, (forall k, 1 <= k -> 1 <= rank p rows k <= k) /\
       (forall j k, 1 <= j <= k -> rank p rows j = Z.min j (rank p rows k))) ->
    level <> 0%nat -> rows <> [] ->
    exists s0, new p rows None None level = Ok s0 /\
    exists d s1, phi rank s0 = (Ok d, s1) /\ d_dim d = rank p rows (Z.of_nat (List.length rows)) /\
      fst (dim_feature rank s1) = Ok (d_dim d).
Proof. exact @dim_feature_default. Qed.
Print Assumptions C103_default_dimension_partial.

(** When one is requested, it can be read only if some eigenvalue was pruned. *)
Theorem C103_requested_dimension_refuted :
  forall (Row P : Type) (rank : P -> list Row -> Z -> Z) (p : P) (rows : list Row) (k : Z) (level : nat),
    (forall p rows, (forall k, 1 <= k -> 1 <= rank p rows k <= k) /\
       (forall j k, 1 <= j <= k -> rank p rows j = Z.min j (rank p rows k))) ->
    level <> 0%nat -> 1 <= k <= Z.of_nat (List.length rows) ->
    exists s0, new p rows None (Some k) level = Ok s0 /\
    exists d s1, phi rank s0 = (Ok d, s1) /\ d_dim d = rank p rows k /\
      fst (dim_feature rank s1) = if rank p rows k <? k then Ok (d_dim d) else Err EAttributeError.
Proof. exact @dim_feature_of_phi. Qed.
Print Assumptions C103_requested_dimension_refuted.

Example C103_nontrivial : forall (p : unit) (rows : list Z), let rank := fun (_ : unit) (_ : list Z) k => Z.min 2 k in
  (forall k, 1 <= k -> 1 <= rank p rows k <= k) /\ (forall j k, 1 <= j <= k -> rank p rows j = Z.min j (rank p rows k)).
Proof. intros p rows. cbn. split; intros; lia. Qed.
