(** The errors of kerch and their texts (kerch/utils/errors.py).  Definitions only. *)
From Verif Require Import Base.
Open Scope string_scope.
Open Scope list_scope.

(** The arguments that are passed to the constructor of an error: [None], a string, an instance of
    a class derived from [kerch.feature.Logger] (with the name of its class), anything else (with
    its text). *)
Inductive value : Type := VNone | VText (s : string) | VObject (c : string) | VOther (s : string).

(** The classes of errors, with the message that they give themselves before the constructor of
    [KerchError] is called (errors.py:26-88).  [KerchError] has none; that its constructor is marked
    abstract (errors.py:14) has no effect, as Python only checks it for classes that take their
    [__new__] from [object]. *)
Definition defaults : dict string :=
  [ ("ImplicitError", "Implicit representation not available.");
    ("ExplicitError", "Explicit representation not available.
[Example 1]: The explicit representation does not exist as it lies in an infinite dimensional Hilbert space.
[Example 2]: Only the inner product (implicit representation) is known, but not the original vectors.");
    ("RepresentationError", "Unrecognized or unspecified representation (must be primal or dual).");
    ("BijectionError", "Mathematically undefined operation. A transform is not bijective, thus non invertible.");
    ("NotInitializedError", "The model has not been initialized yet.");
    ("MultiViewError", "Primal operations are not defined a multi-view context. You must ask them for the different known separately, if it exists for it.") ].
Definition error_classes : list string := "KerchError" :: dkeys defaults.

(** The binding of the arguments of a Python call to the parameters [ps]: the positional ones in
    order, then the keywords. *)
Fixpoint bind_positional (ps : list string) (args : list value) : result (dict value) :=
  match args, ps with
  | [], _ => Ok []
  | _ :: _, [] => Err ETypeError
  | a :: args', p :: ps' => bind (bind_positional ps' args') (fun d => Ok ((p, a) :: d))
  end.
Fixpoint bind_keywords (ps : list string) (kw : dict value) (d : dict value) : result (dict value) :=
  match kw with
  | [] => Ok d
  | (k, v) :: kw' => if smem k ps then (if dmem d k then Err ETypeError else bind_keywords ps kw' (dset d k v)) else Err ETypeError
  end.
Definition bind_call (ps : list string) (args : list value) (kw : dict value) : result (dict value) :=
  bind (bind_positional ps args) (bind_keywords ps kw).

(** [KerchError.__init__] (errors.py:15-23): the text of the error.  Adding a string and something
    else is a [TypeError]; [str] of something else is its text. *)
Definition text_of (v : value) : string :=
  match v with VNone => "None" | VText s => s | VObject c => ("<" ++ c ++ ">")%string | VOther s => s end.
Definition error_text (e : string) (args : list value) (kw : dict value) : result string :=
  bind (bind_call ["cls"; "message"] args kw) (fun d =>
    let cls := match dget d "cls" with Some v => v | None => VNone end in
    let message := match dget d "message" with Some v => v | None => VText "" end in
    let msg := match message with
               | VText "" => match dget defaults e with Some m => VText m | None => VText "" end
               | m => m
               end in
    match cls with
    | VObject c => match msg with VText s => Ok ("[" ++ c ++ "] " ++ s)%string | _ => Err ETypeError end
    | _ => Ok (text_of msg)
    end).

(** The places where an error is raised: file and line, class of the error, what is passed (the
    object itself, a text), the message that is written there.  [raise E] is [raise E()].  The
    unused files (kerch/model/_view.py) are left out, as are kernel/_base_kernel.py:253 and
    kernel/kernel.py:309, where an error is made but not raised (C47). *)
Inductive passed : Type := Self | Text (s : string).
Definition pass (o : string) (p : passed) : value := match p with Self => VObject o | Text s => VText s end.
Record site : Type := Site { s_place : string; s_class : string; s_args : list passed; s_kw : dict passed; s_message : option string }.
Definition said (place cls message : string) : site := Site place cls [] [("cls", Self); ("message", Text message)] (Some message).
Definition sites : list site :=
  [ said "model/RKM.py:21" "KerchError" "The RKM model does not contain any level. Please add one or check if the arguments are correct.";
    said "model/Model.py:28" "NotInitializedError" "The model does not contain any level.";
    said "model/Model.py:126" "NotInitializedError" "Please initialize the sample and the levels first.";
    said "level/single_view/View.py:182" "NotInitializedError" "The target values have not been set (yet).";
    said "level/single_view/View.py:192" "NotInitializedError" "The sample has not been initialized yet.";
    said "level/_View.py:155" "NotInitializedError" "The output dimension has not been initialized yet.";
    said "level/_View.py:174" "NotInitializedError" "No hidden values have been initialized or computed yet.";
    said "level/_View.py:267" "NotInitializedError" "No weight has been initialized or computed yet.";
    Site "level/_View.py:344" "RepresentationError" [] [] None;
    said "feature/sample.py:79" "NotInitializedError" "The input dimension has been initialized yet. Please initialize it explicitly or assign a sample to determine it.";
    said "feature/sample.py:101" "NotInitializedError" "The sample has not been initialized yet.";
    Site "kernel/implicit.py:42" "ExplicitError" [] [("cls", Self)] None;
    Site "kernel/implicit.py:52" "ExplicitError" [] [("cms", Self)] None;
    said "kernel/nystrom.py:102" "NotInitializedError" "The base kernel has not been defined yet.";
    said "kernel/nystrom.py:170" "ExplicitError" "Explicit pre-image is not possible with the Nystrom kernel.";
    said "kernel/network/explicit_nn.py:83" "NotInitializedError" "No decoder provided. This is necessary for the pseudo-inversion of a neural-network based explicit feature map.";
    Site "kernel/network/explicit_nn.py:113" "KerchError"
      [Text "The decoder is not a pre-image of the explicit representation, but of the model image itself. Hence the pre-image cannot be computed directly on an explicit representation. You may directly access the decoder member of this instance and compute it yourself if you nevertheless wish to perform this operation."] []
      (Some "The decoder is not a pre-image of the explicit representation, but of the model image itself. Hence the pre-image cannot be computed directly on an explicit representation. You may directly access the decoder member of this instance and compute it yourself if you nevertheless wish to perform this operation.");
    said "kernel/distance/_distance.py:52" "NotInitializedError" "The kernel bandwidth sigma value is unset. It cannot be deduced based on a heuristic as the sample is also unset.";
    said "kernel/generic/polynomial.py:185" "ExplicitError" "Explicit formulation is only possible for degrees that are natural numbers.";
    Site "kernel/_base_kernel.py:119" "NotInitializedError" [Text "The sample has not been initialized yet."] [] (Some "The sample has not been initialized yet.");
    said "kernel/random_features/rf_lrelu.py:39" "BijectionError" "Random Leaky-ReLU Features are not invertible for alpha=0.";
    said "kernel/random_features/random_features.py:202" "BijectionError" "The activation function is not invertible.";
    Site "utils/cast.py:110" "RepresentationError" [Self] [] None;
    Site "transform/Transform.py:104" "BijectionError" [] [] None;
    Site "transform/Transform.py:111" "ImplicitError" [] [] None;
    Site "transform/Transform.py:135" "BijectionError" [] [] None;
    Site "transform/Transform.py:142" "BijectionError" [] [] None;
    Site "transform/Transform.py:205" "BijectionError" [] [] None;
    Site "transform/Transform.py:208" "ImplicitError" [] [] None ].
(** What the user reads, when the object is of class [o]. *)
Definition read_at (o : string) (s : site) : result string :=
  error_text (s_class s) (map (pass o) (s_args s)) (map (fun x => (fst x, pass o (snd x))) (s_kw s)).
