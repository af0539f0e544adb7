(** C201, C202: stacked random features. *)
From Verif Require Import Base RVec RandomFeaturesR RandomFeaturesRSpec.
From Verif Require Import Stack StackSpec StackProofs StackExamples StackR StackRSpec StackRProofs.
Open Scope nat_scope.
Open Scope list_scope.

(** ** C201: to what the layers are fitted *)

(** Whatever the transforms and the features are: after any history of initialisations, updates and
    selections, refused ones included except for initialisations, the features of a point are those
    of stages fitted to the points of the last initialisation, after the sample transform of the
    stack, which is fitted to the points in use. *)
Theorem C201_exactly_partial :
  forall (P W : Type) (outer inner : list P -> P -> result P) (feat : W -> P -> result P)
    (ws : list W) (s : list P) (idx : option (list nat)) (st0 : stack P W) (ops : list (op P)) (st : stack P W) rs (x : P),
  construct outer inner feat ws (Some s) idx = Ok st0 -> run outer inner feat st0 ops = (st, rs) -> inits_accepted rs ->
  phi outer inner feat st x =
  bind (current st) (fun c => bind (outer c x) (through inner feat ws (base_of outer (last_init s idx ops)))).
Proof. intros P W outer inner. exact (stack_exactly outer inner). Qed.
Print Assumptions C201_exactly_partial.
(** Just after an accepted initialisation, even after refused ones, the stack is the one that would be made anew with
    the same weights. *)
Theorem C201_initialised_partial :
  forall (P W : Type) (outer inner : list P -> P -> result P) (feat : W -> P -> result P)
    (ws : list W) (s0 : list P) (i0 : option (list nat)) (st0 : stack P W) (ops : list (op P)) (s : list P) (idx : option (list nat)) (st : stack P W) rs,
  construct outer inner feat ws (Some s0) i0 = Ok st0 -> run outer inner feat st0 (ops ++ [OInit s idx]) = (st, rs) ->
  last rs (OInit [] None, Err ETypeError) = (OInit s idx, Ok tt) ->
  construct outer inner feat ws (Some s) idx = Ok st.
Proof. intros P W outer inner. exact (stack_fresh outer inner). Qed.
Print Assumptions C201_initialised_partial.
(** The features of the sample are those of its points. *)
Theorem C201_in_sample :
  forall (P W : Type) (outer inner : list P -> P -> result P) (feat : W -> P -> result P) (st : stack P W) (zs : list P),
  phi_sample outer inner feat st = Ok zs ->
  exists c, current st = Ok c /\ rows (phi outer inner feat st) c = Ok zs.
Proof. intros P W outer inner. exact (stack_in_sample outer inner). Qed.
Print Assumptions C201_in_sample.
(** An update, and a selection, leave the layers as they were: the features are not those of a stack
    made with the same weights and the points in use. *)
Theorem C201_update_refuted :
  exists st0 st1 st2 rs1 rs2 fresh1 fresh2,
    zconstruct two_layers (Some points) None = Ok st0 /\
    zrun st0 [OUpdate [[5; 5]]%Z (Some [0])] = (st1, rs1) /\ map snd rs1 = [Ok tt] /\
    zconstruct two_layers (Some [[5; 5]; [4; 7]; [2; 2]]%Z) None = Ok fresh1 /\ current fresh1 = current st1 /\
    zrun st0 [OSelect (Some [1; 2])] = (st2, rs2) /\ map snd rs2 = [Ok tt] /\
    zconstruct two_layers (Some points) (Some [1; 2]) = Ok fresh2 /\ current fresh2 = current st2 /\
    zphi st0 [3; 3]%Z = zphi st1 [3; 3]%Z /\ zphi st0 [3; 3]%Z = zphi st2 [3; 3]%Z /\
    zphi st1 [3; 3]%Z = Ok [12; 18]%Z /\ zphi fresh1 [3; 3]%Z = Ok [-12; -12]%Z /\ zphi fresh2 [3; 3]%Z = Ok [-6; -24]%Z.
Proof. do 7 eexists. vm_compute. repeat split. Qed.
Print Assumptions C201_update_refuted.
(** A refused initialisation leaves the first layer with the refused points: the stack then refuses
    every point, of the old width and of the new one. *)
Theorem C201_refused_refuted :
  exists st0 st rs, zconstruct two_layers (Some points) None = Ok st0 /\ zphi st0 [3; 3]%Z = Ok [12; 18]%Z /\
    zrun st0 [OInit [[1; 0; 2]; [2; 2; 4]]%Z None] = (st, rs) /\ map snd rs = [Err ERuntimeError] /\
    forall x, zphi st x = Err ERuntimeError.
Proof.
  do 3 eexists. split; [vm_compute; reflexivity|]. split; [reflexivity|]. split; [vm_compute; reflexivity|]. split; [reflexivity|].
  intros x. destruct x as [|a [|b [|c [|d x]]]]; reflexivity.
Qed.
Print Assumptions C201_refused_refuted.
(** Unlike the other kernels, a stack cannot be made before its sample is known. *)
Theorem C201_no_sample :
  forall (P W : Type) (outer inner : list P -> P -> result P) (feat : W -> P -> result P) (ws : list W) (idx : option (list nat)),
  construct outer inner feat ws None idx = Err ENotInitialized.
Proof. reflexivity. Qed.
Print Assumptions C201_no_sample.

Example C201_nontrivial :
  exists st0 st rs, zconstruct two_layers (Some points) (Some [0; 2]) = Ok st0 /\
    zrun st0 [OUpdate [[9; 9]]%Z (Some [2]); OUpdate [[9; 9]]%Z None; OInit [[2; 1]; [0; 0]]%Z None; OSelect (Some [1])] = (st, rs) /\
    map snd rs = [Ok tt; Err EAssertionError; Ok tt; Ok tt] /\ inits_accepted rs /\ current st = Ok [[0; 0]]%Z /\
    zphi st [3; 3]%Z = Ok [6; 12]%Z /\ phi_sample asis shift times st = Ok [[-12; -6]]%Z.
Proof.
  do 3 eexists. split; [vm_compute; reflexivity|]. split; [vm_compute; reflexivity|]. split; [reflexivity|]. split.
  - intros s idx r [E|[E|[E|[E|[]]]]]; try discriminate E. now injection E as _ _ <-.
  - repeat split; vm_compute; reflexivity.
Qed.

(** ** C202: pre-images of stacked features *)

(** After any history, accepted or refused, the explicit pre-image of the features of a point is the
    point, when the activations can be inverted and the weights have independent columns; with or
    without a standardisation of the sample of the stack. *)
Theorem C202_recovers :
  forall (ws : list rweights) (s : mat) (idx : option (list nat)) (ops : list (op vec)),
  (forall l, In l ws -> exists d, suited d l) ->
  (forall st0 st rs x y, construct plain standardise rfeat ws (Some s) idx = Ok st0 ->
     run plain standardise rfeat st0 ops = (st, rs) -> phi plain standardise rfeat st x = Ok y ->
     preimage plain destandardise rfeat_back st y = Ok x) /\
  (forall st0 st rs x y, construct standardise standardise rfeat ws (Some s) idx = Ok st0 ->
     run standardise standardise rfeat st0 ops = (st, rs) -> phi standardise standardise rfeat st x = Ok y ->
     preimage destandardise destandardise rfeat_back st y = Ok x).
Proof.
  intros ws s idx ops Hw. split; intros st0 st rs x y H0 H E.
  - exact (stack_recovers plain plain plain_undone ws s idx st0 ops st rs x y Hw H0 H E).
  - exact (stack_recovers standardise destandardise standardise_undone ws s idx st0 ops st rs x y Hw H0 H E).
Qed.
Print Assumptions C202_recovers.
(** Such a stack can be made from any sample of at least two points and gives features to every
    point of the same width. *)
Theorem C202_defined :
  forall (d : nat) (ws : list rweights) (s : mat), (2 <= List.length s) -> rect d s -> fits d ws ->
  (exists st, construct plain standardise rfeat ws (Some s) None = Ok st /\
     forall x, List.length x = d -> exists y, phi plain standardise rfeat st x = Ok y) /\
  (exists st, construct standardise standardise rfeat ws (Some s) None = Ok st /\
     forall x, List.length x = d -> exists y, phi standardise standardise rfeat st x = Ok y).
Proof.
  intros d ws s Hs Hr Hf. split.
  - apply (stack_defined plain); try assumption. intros c x e _ _ L. exists x. now split.
  - apply (stack_defined standardise); try assumption. intros c x e Hc Re Le. now apply (standardise_ok e).
Qed.
Print Assumptions C202_defined.

Example C202_nontrivial :
  let w1 := RWeights Arcsinh [[1]; [1]]%R [[1 / 2; 1 / 2]]%R in
  let w2 := RWeights (LReLU (1 / 10)) [[1; 0]; [0; 1]]%R [[1; 0]; [0; 1]]%R in fits 1 [w1; w2].
Proof.
  cbn [fits]. split; [|split; [|exact I]].
  - split; [exact I|]. split; [discriminate|]. split; [repeat constructor|]. split.
    + split; [reflexivity|]. split; [repeat constructor|]. intros [|a [|b x]] L; try discriminate L. cbn. f_equal; [lra|]. f_equal; lra.
    + intros [|a [|b x]] L; try discriminate L. intros F. apply Forall_inv in F. cbn in F. repeat constructor. lra.
  - split; [cbn; lra|]. split; [discriminate|]. split; [repeat constructor|]. split.
    + split; [reflexivity|]. split; [repeat constructor|]. intros [|a [|b [|c x]]] L; try discriminate L. cbn. f_equal; [lra|]. f_equal; lra.
    + intros [|a [|b [|c x]]] L; try discriminate L. intros F. pose proof (Forall_inv F) as F1. pose proof (Forall_inv (Forall_inv_tail F)) as F2.
      cbn in F1, F2. repeat constructor; lra.
Qed.
