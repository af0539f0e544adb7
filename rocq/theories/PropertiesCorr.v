(** Property theorems C48, C99: covariances and correlations of the features. *)
From Verif Require Import Base Cache CacheSpec Beautify BeautifySpec TransformTree TransformSpec RVec TransformR
  TransformRSpec TransformRProofs TransformRExamples Corr CorrSpec CorrProofs.
Open Scope R_scope.

(** * C48 *)

(** Covariance matrices, of the sample or of other data, are symmetric and positive
    semi-definite. *)
Theorem C48_covariance :
  forall (D : Type) (feat : D -> mat) (kmat : D -> D -> mat) (sample : D) (d : nat),
    rect d (feat sample) -> let num := explicit_numerics feat kmat sample in
    forall (s : tstate val D) (k : kclass) (default : list cls) (x : option nat) (cs : list cls) (p : path),
    reached num true s -> cov_list k default = Ok cs ->
    requested (t_default s) (Some (map RCls cs)) = Ok p -> enough_points p (length (feat sample)) ->
    rect d (feat (object sample s x)) -> feat (object sample s x) <> [] ->
    exists c s', cov num k default x s = (Ok (VMat c), s') /\ length c = d /\ rect d c /\
      (forall v, 0 <= quad c v) /\
      forall i j, (i < d)%nat -> (j < d)%nat -> entry c i j = entry c j i /\ 0 <= entry c i i /\
        entry c i j * entry c i j <= entry c i i * entry c j j.
Proof. exact @cov_symmetric. Qed.
Print Assumptions C48_covariance.

(** Without points there is neither. *)
Theorem C48_no_points :
  forall (D : Type) (feat : D -> mat) (kmat : D -> D -> mat) (sample : D) (d : nat),
    rect d (feat sample) -> let num := explicit_numerics feat kmat sample in
    forall (s : tstate val D) (k : kclass) (default : list cls) (x : option nat) (cs : list cls) (p : path),
    reached num true s -> cov_list k default = Ok cs ->
    requested (t_default s) (Some (map RCls cs)) = Ok p -> enough_points p (length (feat sample)) ->
    feat (object sample s x) = [] ->
    exists s', cov num k default x s = (Err EDivisionByZero, s') /\ corr num k default x s = (Err EDivisionByZero, s').
Proof. exact @cov_no_points. Qed.
Print Assumptions C48_no_points.

(** Where variances are positive, correlation matrices are correlation matrices; a zero
    variance gives NaN. *)
Theorem C48_correlation :
  forall (D : Type) (feat : D -> mat) (kmat : D -> D -> mat) (sample : D) (d : nat),
    rect d (feat sample) -> let num := explicit_numerics feat kmat sample in
    forall (s : tstate val D) (k : kclass) (default : list cls) (x : option nat) (cs : list cls) (p : path),
    reached num true s -> cov_list k default = Ok cs ->
    requested (t_default s) (Some (map RCls cs)) = Ok p -> enough_points p (length (feat sample)) ->
    rect d (feat (object sample s x)) -> feat (object sample s x) <> [] ->
    exists c s', cov num k default x s = (Ok (VMat c), s') /\
      ((forall i, (i < d)%nat -> 0 < entry c i i) ->
       exists r, corr num k default x s = (Ok (VMat r), s') /\ length r = d /\ rect d r /\
         forall i j, (i < d)%nat -> (j < d)%nat ->
           entry r i i = 1 /\ entry r i j = entry r j i /\ -1 <= entry r i j <= 1) /\
      ((exists i, (i < d)%nat /\ entry c i i = 0) -> corr num k default x s = (Ok VNaN, s')).
Proof. exact @corr_is_correlation. Qed.
Print Assumptions C48_correlation.

Example C48_nontrivial :
  exists s, reached (sample_numerics three) true s /\ cov_list plain_class [MeanCenter; UnitVar] = Ok [MeanCenter; UnitVar; MeanCenter] /\
    requested (t_default s) (Some (map RCls [MeanCenter; UnitVar; MeanCenter])) = Ok [MeanCenter; UnitVar; MeanCenter] /\
    enough_points [MeanCenter; UnitVar; MeanCenter] (length three) /\ rect 2 three /\ three <> [].
Proof.
  destruct (fresh_standard (sample_numerics three) true (fun _ => [[0; 1]])) as (s & Hr & _).
  exists s. split; [exact Hr|]. split; [reflexivity|]. split; [reflexivity|].
  split; [split; [cbn; lia|intros _; cbn; lia]|]. split; [exact three_rect|discriminate].
Qed.

(** * C99 *)

(** For the sample, and the kernels that require no transform, the entries of the
    covariance matrix are the covariances of the features. *)
Theorem C99_sample_partial :
  forall (D : Type) (feat : D -> mat) (kmat : D -> D -> mat) (sample : D) (d : nat),
    rect d (feat sample) -> let num := explicit_numerics feat kmat sample in
    forall (s : tstate val D) (default : list cls), reached num true s -> no_repeat default ->
    enough_points default (length (feat sample)) ->
    exists m c s1 s2, apply num true None None (Some (map RCls default)) s = (Ok (VMat m), s1) /\
      cov num plain_class default None s = (Ok (VMat c), s2) /\
      forall i j, (i < d)%nat -> (j < d)%nat -> entry c i j = covariance (column i m) (column j m).
Proof. exact @cov_of_sample_features. Qed.
Print Assumptions C99_sample_partial.

(** Out of sample the mean of the sample is subtracted: one point then has a variance. *)
Theorem C99_out_of_sample_refuted :
  (forall (s : tstate val mat) (x : nat), reached (sample_numerics [[0]]) true s -> t_heap s x = [[1]] ->
    exists s', cov (sample_numerics [[0]]) plain_class [] (Some x) s = (Ok (VMat [[1]]), s')) /\
  covariance [1] [1] = 0.
Proof. exact (conj oos_cov_not_covariance (single_covariance 1)). Qed.
Print Assumptions C99_out_of_sample_refuted.

(** The cosine kernel normalises the features again after centring them. *)
Theorem C99_cosine_refuted :
  (forall s : tstate val mat, reached (sample_numerics signs) true s ->
    exists s', cov (sample_numerics signs) cosine_class [Sphere] None s = (Ok (VMat [[1]]), s')) /\
  div_norms signs (map norm signs) = signs /\ covariance (column 0 signs) (column 0 signs) = 8 / 9.
Proof. exact (conj cosine_cov (conj sphere_signs signs_covariance)). Qed.
Print Assumptions C99_cosine_refuted.

Example C99_nontrivial :
  exists s, reached (sample_numerics three) true s /\ no_repeat [MeanCenter; UnitVar] /\
    enough_points [MeanCenter; UnitVar] (length three) /\ rect 2 three /\
  exists s1, reached (sample_numerics [[0]]) true s1 /\ t_heap s1 7%nat = [[1]].
Proof.
  destruct (fresh_standard (sample_numerics three) true (fun _ => [[0; 1]])) as (s & Hr & _).
  exists s. split; [exact Hr|]. split; [cbn; repeat split; discriminate|].
  split; [split; [cbn; lia|intros _; cbn; lia]|]. split; [exact three_rect|].
  destruct (fresh_standard (sample_numerics [[0]]) true (fun _ => [[1]])) as (s1 & Hr1 & Hh & _).
  exists s1. split; [exact Hr1|]. now rewrite Hh.
Qed.
