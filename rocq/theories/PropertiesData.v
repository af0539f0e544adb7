(** Splits of data sets, logging levels, and casts. *)
From Coq Require Import Permutation.
From Verif Require Import Base DataSplit DataSplitSpec DataSplitProofs Logger LoggerSpec LoggerProofs Cast CastSpec CastProofs.
Open Scope string_scope.
Open Scope nat_scope.
Open Scope list_scope.

(** *** C75 *)

(** Non-negative sizes that the data can meet: for every shuffle, disjoint sets of indices of
    exactly the requested sizes, all of them if everything is requested. *)
Theorem C75_indices_partial : forall s sizes total, shuffling s -> non_negative sizes -> (requested sizes <= Z.of_nat total)%Z ->
  exists parts, indices s (Sizes sizes) (Some total) = Ok parts /\ sizes_of parts = sizes /\
    NoDup (List.concat parts) /\ (forall i, In i (List.concat parts) -> i < total) /\
    (requested sizes = Z.of_nat total -> Permutation (List.concat parts) (seq 0 total)).
Proof. exact indices_split. Qed.
Print Assumptions C75_indices_partial.
(** The same for a data set: the three sets have the requested sizes and no point is used twice. *)
Theorem C75_sets_partial : forall (X : Type) s (training : Z -> result (list X)) a b c data, shuffling s -> non_negative [a; b; c] ->
  training (a + b + c)%Z = Ok data -> (a + b + c <= Z.of_nat (List.length data))%Z ->
  exists d, learning_train s training a b c = Ok d /\ set_sizes d = [a; b; c] /\ drawn d data.
Proof. intros X. exact train_split. Qed.
Print Assumptions C75_sets_partial.
(** The generated data sets (two moons, spiral, Gaussians) meet every request. *)
Theorem C75_generated_partial : forall (X : Type) s (training : Z -> result (list X)) count a b c, shuffling s -> non_negative [a; b; c] ->
  count = moons_count \/ count = pairs_count -> supplies training count ->
  exists d data, training (a + b + c)%Z = Ok data /\ learning_train s training a b c = Ok d /\ set_sizes d = [a; b; c] /\ drawn d data.
Proof. intros X. exact generated_split. Qed.
Print Assumptions C75_generated_partial.
(** Refuted: a request for more points than there are is not rejected; smaller sets are given. *)
Theorem C75_too_much_refuted : forall (X : Type) s (training : Z -> result (list X)) a b c data, shuffling s -> non_negative [a; b; c] ->
  training (a + b + c)%Z = Ok data -> (Z.of_nat (List.length data) < a + b + c)%Z ->
  exists d, learning_train s training a b c = Ok d /\ set_sizes d <> [a; b; c].
Proof. intros X. exact train_too_much. Qed.
Print Assumptions C75_too_much_refuted.
(** The data sets read from a file (the 768 lines of Pima, the 150 of Iris) meet exactly the requests
    for at most as many points as there are lines. *)
Theorem C75_files_partial : forall (X : Type) s (training : Z -> result (list X)) count lines a b c, shuffling s -> non_negative [a; b; c] ->
  (count = pima_count /\ lines = 768%Z) \/ (count = iris_count /\ lines = 150%Z) -> supplies training count ->
  exists d data, training (a + b + c)%Z = Ok data /\ learning_train s training a b c = Ok d /\
    (set_sizes d = [a; b; c] <-> (a + b + c <= lines)%Z) /\ ((a + b + c <= lines)%Z -> drawn d data).
Proof.
  intros X s training count lines a b c S N H Q. specialize (Q (a + b + c)%Z).
  assert (E : exists data, training (a + b + c)%Z = Ok data /\ Z.of_nat (List.length data) = lines).
  { destruct H as [[-> ->]|[-> ->]]; unfold pima_count, iris_count in Q; destruct Q as (data & T & L); exists data; (split; [exact T|]); rewrite L; reflexivity. }
  destruct E as (data & T & L). destruct (Z_le_gt_dec (a + b + c) lines) as [G|G].
  - destruct (train_split s training a b c data S N T ltac:(lia)) as (d & A & B & C). exists d, data. tauto.
  - destruct (train_too_much s training a b c data S N T ltac:(lia)) as (d & A & B). exists d, data.
    repeat split; try assumption; intros; try contradiction; lia.
Qed.
Print Assumptions C75_files_partial.
Example C75_files_nontrivial : shuffling (Some (@rev nat)) /\ non_negative [100; 20; 30]%Z /\
  supplies (fun _ => Ok (repeat 1 150)) iris_count /\ supplies (fun _ => Ok (repeat 1 768)) pima_count.
Proof.
  split; [intros l; symmetry; apply Permutation_rev|]. split; [intros x; cbn; lia|].
  split; intros num; cbn beta iota delta [iris_count pima_count]; eexists; (split; [reflexivity|apply repeat_length]).
Qed.
(** Refuted: negative sizes are not rejected, and can make the test set part of the training set. *)
Theorem C75_negative_refuted : forall (X : Type) s (data : list X), shuffling s -> 3 <= List.length data ->
  exists d, learning_train s (fun _ => Ok data) 3 (-2) 2 = Ok d /\ List.length (ls_test d) = 2 /\
    (forall x, In x (ls_test d) -> In x (ls_training d)).
Proof. intros X. exact train_overlap. Qed.
Print Assumptions C75_negative_refuted.
(** And a negative number of training points takes all the data but that many. *)
Theorem C75_from_end_refuted : forall (X : Type) s (data : list X) k b c, shuffling s -> 0 < k ->
  exists d, learning_train s (fun _ => Ok data) (- Z.of_nat k) b c = Ok d /\
    List.length (ls_training d) = List.length data - k.
Proof. intros X. exact train_from_end. Qed.
Print Assumptions C75_from_end_refuted.
(** Refuted: with a separate test set, no data set can be created. *)
Theorem C75_separate_test_refuted : forall (X : Type) s (training test : Z -> result (list X)) a b c,
  exists e, learning_train_test s training test a b c = Err e.
Proof. intros X. exact train_test_fails. Qed.
Print Assumptions C75_separate_test_refuted.
Example C75_nontrivial : shuffling (Some (@rev nat)) /\ non_negative [3; 0; 2]%Z /\
  indices (Some (@rev nat)) (Sizes [3; 0; 2]%Z) (Some 6) = Ok [[5; 4; 3]; []; [2; 1]] /\
  learning_train (Some (@rev nat)) (fun _ => Ok [10; 20; 30; 40]) 3 2 1 = Ok (Learning [40; 30; 20] [10] []) /\
  pairs_count 5 = Ok 6 /\ moons_count 5 = Ok 5.
Proof.
  split; [intros l; symmetry; apply Permutation_rev|].
  split; [intros z [<-|[<-|[<-|[]]]]; lia|]. split; [reflexivity|]. split; [reflexivity|]. split; reflexivity.
Qed.

(** *** C79 *)

(** After setting the level of an object, it and the objects below it have that level (the
    default one if none is given). *)
Theorem C79_read_back_partial : forall s o l x, In x (below o) -> get_level (set_level s o l) x = resolve s l.
Proof. exact set_read. Qed.
Print Assumptions C79_read_back_partial.
(** Operations on objects whose loggers have other names change nothing. *)
Theorem C79_independent_partial : forall ops s x,
  (forall op o, In op ops -> In o (addressed op) -> log_name o <> log_name x) ->
  get_level (lrun s ops) x = get_level s x.
Proof. exact run_other. Qed.
Print Assumptions C79_independent_partial.
(** Refuted: setting the level of an object changes that of the others of the same class; and so
    does the creation of an object. *)
Theorem C79_shared_refuted : forall s a b l, log_name a = log_name b ->
  get_level (set_level s a l) b = resolve s l /\ get_level (new_object s a l) b = resolve s l.
Proof. exact (fun s a b l E => conj (shared_set s a b l E) (shared_new s a b l E)). Qed.
Print Assumptions C79_shared_refuted.
(** Objects of different classes never share a level when they are given the same name, nor when
    they are given none. *)
Theorem C79_classes_partial : forall s cls cls' given ch ch' l, cls <> cls' ->
  (cls <> "Logger" /\ cls' <> "Logger" \/ given = None)%string ->
  get_level (set_level s (Logged cls given []) l) (Logged cls' given ch) = get_level s (Logged cls' given ch) /\
  get_level (new_object s (Logged cls given ch') l) (Logged cls' given ch) = get_level s (Logged cls' given ch).
Proof. exact classes_apart. Qed.
Print Assumptions C79_classes_partial.
(** Without a name, they share it exactly within a class. *)
Theorem C79_class_level_refuted : forall s cls ch ch' l,
  get_level (new_object s (Logged cls None ch) l) (Logged cls None ch') = resolve s l.
Proof. exact class_level. Qed.
Print Assumptions C79_class_level_refuted.
Example C79_nontrivial :
  let a := Logged "RBF" None [Logged "Sphere" (Some "Explicit") []] in
  let b := Logged "RBF" None [] in
  let c := Logged "Linear" None [] in
  log_name a = log_name b /\ log_name c <> log_name a /\
  map (get_level (lrun linit [LNew a None; LNew b (Some 10%Z); LNew c None])) [a; b; c] = [10; 10; 30]%Z /\
  map (get_level (lrun linit [LNew a None; LNew b None; LNew c None; LSet a (Some 20%Z)])) [a; b; c] = [20; 20; 30]%Z.
Proof. cbv zeta. split; [reflexivity|]. split; [discriminate|]. split; vm_compute; reflexivity. Qed.

(** *** C133 *)

(** The default level: it is read back, new objects get it, existing ones keep theirs, and
    nothing else changes it. *)
Theorem C133_default_read : forall s l, get_default (set_default s l) = l.
Proof. exact default_read. Qed.
Print Assumptions C133_default_read.
Theorem C133_new_objects : forall s l o, get_level (new_object (set_default s l) o None) o = l.
Proof. exact default_new. Qed.
Print Assumptions C133_new_objects.
Theorem C133_existing_objects : forall s l o, log_name o <> log_name global_logger ->
  get_level (set_default s l) o = get_level s o.
Proof. exact default_existing. Qed.
Print Assumptions C133_existing_objects.
Theorem C133_only_default : forall ops s, (forall op l, In op ops -> op <> LDefault l) -> get_default (lrun s ops) = get_default s.
Proof. exact default_run. Qed.
Print Assumptions C133_only_default.
Example C133_nontrivial :
  let a := Logged "RBF" None [] in
  let s := lrun linit [LNew a None; LDefault 10%Z; LNew (Logged "Linear" None []) None] in
  log_name a <> log_name global_logger /\ get_level s a = 30%Z /\ get_level s (Logged "Linear" None []) = 10%Z /\ get_default s = 10%Z.
Proof. cbv zeta. split; [discriminate|]. split; [reflexivity|]. split; reflexivity. Qed.

(** *** C80 *)

(** Scalars, vectors and matrices. *)
Theorem C80_scalar : forall (A : Type) (x : array A), a_shape x = [] ->
  castf (Some x) true = Ok (Some (Array [1; 1] (a_data x))) /\ entry (Array [1; 1] (a_data x)) [0; 0] = entry x [].
Proof. intros A. exact cast_scalar. Qed.
Print Assumptions C80_scalar.
Theorem C80_vector : forall (A : Type) (x : array A) n, a_shape x = [n] ->
  castf (Some x) true = Ok (Some (Array [n; 1] (a_data x))) /\
  forall i, entry (Array [n; 1] (a_data x)) [i; 0] = entry x [i].
Proof. intros A. exact cast_vector. Qed.
Print Assumptions C80_vector.
Theorem C80_matrix : forall (A : Type) (x : array A) n m, a_shape x = [n; m] -> castf (Some x) true = Ok (Some x).
Proof. intros A. exact cast_matrix. Qed.
Print Assumptions C80_matrix.
(** More dimensions are rejected. *)
Theorem C80_rejected : forall (A : Type) (x : array A), 3 <= List.length (a_shape x) -> castf (Some x) true = Err ENameError.
Proof. intros A. exact cast_reject. Qed.
Print Assumptions C80_rejected.
(** Every result is a matrix with the entries of the input, and casting it again changes nothing. *)
Theorem C80_idempotent : forall (A : Type) (x y : array A), castf (Some x) true = Ok (Some y) ->
  List.length (a_shape y) = 2 /\ a_data y = a_data x /\ count (a_shape y) = count (a_shape x) /\ castf (Some y) true = Ok (Some y).
Proof. intros A. exact cast_result. Qed.
Print Assumptions C80_idempotent.
Theorem C80_well_formed : forall (A : Type) (x y : array A), well_formed x -> castf (Some x) true = Ok (Some y) -> well_formed y.
Proof. intros A. exact cast_well_formed. Qed.
Print Assumptions C80_well_formed.
Example C80_nontrivial :
  let x := Array [3] [7; 8; 9] in
  well_formed x /\ entry x [1] = Some 8 /\ entry x [3] = None /\
  castf (Some x) true = Ok (Some (Array [3; 1] [7; 8; 9])) /\ entry (Array [3; 1] [7; 8; 9]) [1; 0] = Some 8 /\
  castf (Some (Array [1; 1; 1] [7])) true = Err ENameError /\ castf (@None (array nat)) true = Ok None.
Proof. cbv zeta. split; [reflexivity|]. split; [reflexivity|]. split; [reflexivity|]. split; [reflexivity|]. split; [reflexivity|]. split; reflexivity. Qed.

(** *** C134 *)

(** Refuted: the result of casting integers never has a dimension of size one: a single index
    becomes a scalar, and a matrix with one row a vector, although a matrix is asked for. *)
Theorem C134_dimensions_refuted : forall (A : Type) (x : array A) t y, casti (Some x) t = Ok (Some y) -> ~ In 1 (a_shape y).
Proof. intros A. exact casti_dims. Qed.
Print Assumptions C134_dimensions_refuted.
Theorem C134_row_refuted : forall (A : Type) n (l : list A), n <> 1 -> casti (Some (Array [1; n] l)) true = Ok (Some (Array [n] l)).
Proof. intros A. exact casti_row. Qed.
Print Assumptions C134_row_refuted.
(** What holds: other matrices are kept as they are. *)
Theorem C134_matrix_partial : forall (A : Type) (x : array A) n m, a_shape x = [n; m] -> n <> 1 -> m <> 1 -> casti (Some x) true = Ok (Some x).
Proof. intros A. exact casti_keeps. Qed.
Print Assumptions C134_matrix_partial.
Example C134_nontrivial :
  casti (Some (Array [1] [5])) false = Ok (Some (Array [] [5])) /\
  casti (Some (Array [1; 3] [5; 6; 7])) true = Ok (Some (Array [3] [5; 6; 7])) /\
  casti (Some (Array [2; 3] [5; 6; 7; 8; 9; 10])) true = Ok (Some (Array [2; 3] [5; 6; 7; 8; 9; 10])).
Proof. split; [reflexivity|]. split; reflexivity. Qed.

(** *** C135 *)

(** Exactly the two representations are accepted; the default is used only if none is given; and
    it is checked as well. *)
Theorem C135_representation : forall rep default r, check_representation rep default = Ok r <->
  (r = "primal" \/ r = "dual") /\ (rep = Some r \/ (rep = None /\ default = Some r)).
Proof. exact representation_spec. Qed.
Print Assumptions C135_representation.
Theorem C135_error : forall rep default e, check_representation rep default = Err e -> e = ERepresentation.
Proof. exact representation_error. Qed.
Print Assumptions C135_error.
Example C135_nontrivial : check_representation None (Some "dual") = Ok "dual" /\
  check_representation (Some "Dual") (Some "dual") = Err ERepresentation /\ check_representation None None = Err ERepresentation.
Proof. split; [reflexivity|]. split; reflexivity. Qed.
