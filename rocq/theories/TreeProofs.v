(** Induction and basic lemmas on rose trees. *)
From Verif Require Import Base Tree.

Section TreeInd.
  Context {A : Type} (P : tree A -> Prop).
  Hypothesis H : forall a ts, Forall P ts -> P (Node a ts).
  Fixpoint tree_ind' (t : tree A) : P t :=
    match t with
    | Node a ts =>
        H a ts ((fix go (l : list (tree A)) : Forall P l :=
                   match l with
                   | [] => Forall_nil P
                   | t' :: l' => Forall_cons t' (tree_ind' t') (go l')
                   end) ts)
    end.
End TreeInd.

Section Tree.
  Context {A : Type}.

  Lemma all_nodes_Node (P : A -> Prop) a ts :
    all_nodes P (Node a ts) <-> P a /\ Forall (all_nodes P) ts.
  Proof.
    cbn. assert (E : fold_right (fun t Q => all_nodes P t /\ Q) True ts <-> Forall (all_nodes P) ts).
    { induction ts as [|t ts IH]; cbn; [split; auto|]. rewrite IH. split.
      - intros [? ?]; now constructor. - intros F; now inversion F. }
    now rewrite E.
  Qed.

  Lemma all_nodes_nodes (P : A -> Prop) t : all_nodes P t <-> Forall P (nodes t).
  Proof.
    induction t as [a ts IH] using tree_ind'. rewrite all_nodes_Node. cbn.
    rewrite Forall_cons_iff.
    assert (E : Forall (all_nodes P) ts <-> Forall P (flat_map nodes ts)).
    { induction IH as [|t ts Ht IH' IHl]; cbn; [split; constructor|].
      rewrite Forall_app, Forall_cons_iff, Ht, IHl. reflexivity. }
    now rewrite E.
  Qed.

  Lemma all_nodes_root (P : A -> Prop) t : all_nodes P t -> P (root t).
  Proof. destruct t as [a ts]. now intros [? _]%all_nodes_Node. Qed.

  Lemma all_nodes_impl (P Q : A -> Prop) t :
    (forall a, P a -> Q a) -> all_nodes P t -> all_nodes Q t.
  Proof.
    intros HPQ. rewrite !all_nodes_nodes. apply Forall_impl. exact HPQ.
  Qed.
End Tree.
