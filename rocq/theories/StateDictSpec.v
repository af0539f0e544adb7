(** What is expected of checkpoints. *)
From Verif Require Import Base StateDict.
Open Scope nat_scope.
Open Scope string_scope.
Open Scope list_scope.

Section S.
Context {T : Type} (same_shape : T -> T -> bool).

(** No name is used twice in an object, nor in its submodules. *)
Inductive well_named : obj T -> Prop :=
| WN : forall ps ss os, NoDup (map fst ps) -> NoDup (map fst ss) ->
    Forall (fun s => well_named (snd s)) ss -> well_named (Obj ps ss os).
(** Same registered names, parameters of same shapes. *)
Inductive same_layout : obj T -> obj T -> Prop :=
| SL : forall ps ss os ps' ss' os',
    Forall2 (fun a b => fst a = fst b /\ same_shape (snd b) (snd a) = true) ps ps' ->
    Forall2 (fun a b => fst a = fst b /\ same_layout (snd a) (snd b)) ss ss' ->
    same_layout (Obj ps ss os) (Obj ps' ss' os').
(** The registered parameters are those of [o], what is not registered is that of [o']. *)
Inductive restored : obj T -> obj T -> obj T -> Prop :=
| RS : forall ps ss os ss' ps' os' ss'',
    Forall2 (fun a b => fst a = fst b) ss ss'' ->
    (forall n o o' o'', In (n, o) ss -> In (n, o') ss' -> In (n, o'') ss'' -> restored o o' o'') ->
    restored (Obj ps ss os) (Obj ps' ss' os') (Obj ps ss'' os').
End S.
