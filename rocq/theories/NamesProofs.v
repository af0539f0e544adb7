From Verif Require Import Base BaseProofs RVec KernelR Beautify Factory NamesSpec.
Open Scope string_scope.

Lemma distance_names name order :
  (forall o, In (lower name, o) distances -> select_distance (lower name) order = offered_as o order) /\
  (~ In (lower name) (map fst distances) -> select_distance (lower name) order = Err EValueError).
Proof.
  generalize (lower name). intros s. split.
  - intros o H. cbn in H. repeat destruct H as [H|H]; [..|contradiction]; injection H as <- <-; try reflexivity. now destruct order.
  - intros H. unfold select_distance. cbn in H.
    destruct (String.eqb_spec s "euclidean") as [->|_]; [exfalso; apply H; auto|].
    destruct (String.eqb_spec s "chebyshev") as [->|_]; [exfalso; apply H; auto|].
    destruct (String.eqb_spec s "manhattan") as [->|_]; [exfalso; apply H; auto|].
    destruct (String.eqb_spec s "wasserstein") as [->|_]; [exfalso; apply H; auto 6|].
    destruct (String.eqb_spec s "minkowski") as [->|_]; [exfalso; apply H; auto 6|]. reflexivity.
Qed.

Lemma announced_when k default :
  announced k default = true <-> (default = [] /\ k <> Logistic) \/ exists l, default = (l ++ [Sphere])%list.
Proof.
  unfold announced. split.
  - destruct (rev default) as [|c l] eqn:E.
    + intros H. left. split; [|intros ->; discriminate H]. rewrite <- (rev_involutive default), E. reflexivity.
    + intros H. right. exists (rev l). rewrite <- (rev_involutive default), E. cbn. destruct c; try discriminate H. reflexivity.
  - intros [[-> Hk]|[l ->]].
    + cbn. destruct k; try reflexivity. congruence.
    + now rewrite rev_app_distr.
Qed.
