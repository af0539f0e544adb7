(** Property theorems C65, C124-C126: multi-view models. *)
From Coq Require Import Permutation.
From Verif Require Import Base BaseProofs MultiView RVec RVecProofs MultiViewR MultiViewProofs.
Open Scope string_scope.
Open Scope nat_scope.
Open Scope list_scope.

(** * C65 *)

(** The weights of distinctly named views are consecutive, have the sizes of the views and
    make up the weights of the model. *)
Theorem C65_slices_partial :
  forall (F : Type) (l : list (string * nat)) (w : list F),
    NoDup (map fst l) -> List.length w = list_sum (dims l) ->
    exists ps, List.length ps = List.length l /\ concat ps = w /\
      forall i k d, nth_error l i = Some (k, d) -> view_weight (attach_all l) w k = Ok (nth i ps []) /\ List.length (nth i ps []) = d.
Proof. exact @slices. Qed.
Print Assumptions C65_slices_partial.

(** A view attached under a name already taken has no weights. *)
Theorem C65_duplicate_refuted :
  forall (F : Type) (l : list (string * nat)) k d (w : list F),
    NoDup (map fst l) -> In k (map fst l) -> view_weight (attach_all (l ++ [(k, d)])) w k = Err EIndexError.
Proof. exact @duplicate. Qed.
Print Assumptions C65_duplicate_refuted.

(** The second of the predicted views never gets all its features, whatever they are. *)
Theorem C65_second_refuted :
  forall (F : Type) (s : mview) k1 k2 names d1 d2 (p1 p2 rest : list F) ps,
    view_dim s k1 = Ok d1 -> view_dim s k2 = Ok d2 -> List.length p1 = d1 -> List.length p2 = d2 -> 0 < d1 -> 0 < d2 ->
    predict_parts s (p1 ++ p2 ++ rest) (k1 :: k2 :: names) = Ok ps ->
    nth_error ps 0 = Some (k1, p1) /\ exists q, nth_error ps 1 = Some (k2, q) /\ List.length q < d2.
Proof. exact @second_prediction. Qed.
Print Assumptions C65_second_refuted.

(** A single predicted view does. *)
Theorem C65_single_partial :
  forall (F : Type) (s : mview) k d (row : list F),
    view_dim s k = Ok d -> List.length row = d -> predict_parts s row [k] = Ok [(k, row)].
Proof. exact @single_prediction. Qed.
Print Assumptions C65_single_partial.

(** The dimension of the features of the model is that of all its views together, and each view is
    known under its name only. *)
Theorem C65_dimensions_partial :
  forall (l : list (string * nat)), NoDup (map fst l) ->
    dim_feature (attach_all l) = list_sum (map snd l) /\
    (forall k d, In (k, d) l -> view_dim (attach_all l) k = Ok d) /\
    (forall k, ~ In k (map fst l) -> view_dim (attach_all l) k = Err EKeyError).
Proof.
  intros l N. rewrite (attach_all_distinct l N). split; [|split].
  - unfold dim_feature, dims_feature. cbn [m_views]. now rewrite numbered_dims.
  - intros k d I. apply In_nth_error in I. destruct I as [j J]. unfold view_dim. cbn [m_views].
    now rewrite (numbered_get 0 l j k d N J).
  - intros k K. unfold view_dim. cbn [m_views]. assert (G : forall i, dget (numbered i l) k = None); [|now rewrite G].
    intros i. apply BaseProofs.dget_None. unfold dkeys. now rewrite numbered_keys.
Qed.
Print Assumptions C65_dimensions_partial.

Example C65_nontrivial :
  let s := attach_all [("a", 2); ("b", 3); ("c", 1)] in
  view_weight s [1; 2; 3; 4; 5; 6] "b" = Ok [3; 4; 5] /\ view_weight s [1; 2; 3; 4; 5; 6] "c" = Ok [6] /\
  predict_parts s [1; 2; 3; 4; 5] ["a"; "b"] = Ok [("a", [1; 2]); ("b", [3])] /\
  predict_parts s [1; 2; 3; 4] ["b"; "c"] = Ok [("b", [1; 2; 3]); ("c", [])].
Proof. repeat split; reflexivity. Qed.

(** * C124 *)

(** The kernel of the given views is the inner product of their features. *)
Theorem C124_kernel :
  forall (X : Type) (known : list (rview X * X)) (sample : rview X -> X),
    Forall (fun p => (0 <= r_kappa (fst p))%R /\ List.length (r_phi (fst p) (snd p)) = List.length (r_phi (fst p) (sample (fst p)))) known ->
    dot (multi_phi known) (multi_phi (map (fun p => (fst p, sample (fst p))) known)) = multi_k known sample.
Proof. exact @multi_kernel. Qed.
Print Assumptions C124_kernel.

Example C124_nontrivial :
  let v := RView (X := R) 4 (fun x => [x; 1%R]) [] in let u := RView (X := R) 1 (fun x => [x]) [] in
  Forall (fun p => (0 <= r_kappa (fst p))%R /\ List.length (r_phi (fst p) (snd p)) = List.length (r_phi (fst p) 2%R)) [(v, 3%R); (u, 5%R)] /\
  multi_k [(v, 3%R); (u, 5%R)] (fun _ => 2%R) = 38%R.
Proof.
  cbv zeta. split; [repeat constructor; cbn; lra|].
  unfold multi_k, view_k, dot. cbn. lra.
Qed.

(** * C125 *)

(** With numbers as keys nothing is ever predicted. *)
Theorem C125_numbers_refuted :
  forall s known, Forall (fun p => exists n, fst p = KNum n) known -> project_names s known = Err EAssertionError.
Proof. exact numbers_rejected. Qed.
Print Assumptions C125_numbers_refuted.

(** Numbers given together with names are ignored: their views are predicted from the others. *)
Theorem C125_ignored_refuted :
  forall s known, project_names s known = project_names s (filter named known).
Proof. exact numbers_ignored. Qed.
Print Assumptions C125_ignored_refuted.

(** With a name, all other views are. *)
Theorem C125_name_partial :
  forall s k m, dmem (m_views s) k = true ->
    project_names s [(KName k, Some m)] = Ok (filter (fun k' => negb (String.eqb k' k)) (dkeys (m_views s))).
Proof. exact names_accepted. Qed.
Print Assumptions C125_name_partial.

Example C125_nontrivial :
  let s := attach_all [("a", 2); ("b", 3); ("c", 1)] in
  project_names s [(KName "b", Some 7)] = Ok ["a"; "c"] /\ project_names s [(KNum 1, Some 7)] = Err EAssertionError /\
  project_names s [(KName "b", Some 7); (KNum 2, Some 7)] = Ok ["a"; "c"].
Proof. repeat split; reflexivity. Qed.

(** * C126 *)

(** The order in which the known views are given changes neither their scores nor their
    kernel. *)
Theorem C126_scores :
  forall (X : Type) (known known' : list (rview X * X)), Forall fits known -> Permutation known known' -> score known = score known'.
Proof. exact @score_perm. Qed.
Print Assumptions C126_scores.

Theorem C126_kernel :
  forall (X : Type) (known known' : list (rview X * X)) sample, Permutation known known' -> multi_k known sample = multi_k known' sample.
Proof. exact @kernel_perm. Qed.
Print Assumptions C126_kernel.

Example C126_nontrivial :
  let v := RView (X := R) 1 (fun x => [x; 1%R]) [2%R; 3%R] in let u := RView (X := R) 1 (fun x => [x]) [4%R] in
  Forall fits [(v, 5%R); (u, 6%R)] /\ Permutation [(v, 5%R); (u, 6%R)] [(u, 6%R); (v, 5%R)] /\ score [(v, 5%R); (u, 6%R)] = 37%R.
Proof.
  cbv zeta. split; [repeat constructor|]. split; [constructor|].
  unfold score, multi_phi, weights_by_name, view_phi, dot. cbn. rewrite sqrt_1. lra.
Qed.
