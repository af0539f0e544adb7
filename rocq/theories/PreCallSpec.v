(** What the documentation offers for pre-images, and the objects that can be asked. *)
From Verif Require Import Base Classes ClassesSpec PreCall.
Open Scope string_scope.

(** The methods of the two doc strings, and the further arguments of each. *)
Definition offered : list (string * (answer * list string)) :=
  [ ("knn", (ByKnn, ["num"])); ("smoother", (BySmoother, ["num"]));
    ("iterative", (ByIterative, ["num_iter"; "lr"; "light_cache"; "verbose"])) ].

(** [asked obj own]: [obj] is the class of a kernel or of a level made from kerch's classes or from
    classes that a user derives from them without these methods; [own] are the classes of its kernel
    above [Kernel]. *)
Inductive asked : cls -> list string -> Prop :=
| ask_kernel : forall f k d own obj, own_classes k d own -> NoDup (own ++ below_view) -> pre_defs f = [] ->
    kernel_object f k d = Ok obj -> asked obj own
| ask_level : forall f1 f2 lv k d own obj, own_classes k d own -> NoDup (f1 :: lv ++ "View" :: own ++ below_view) ->
    (forall c, In c (f1 :: f2 :: lv) -> pre_defs c = []) ->
    level_object f1 f2 (level_class lv) k d = Ok obj -> asked obj own.

(** The feature map of the kernel is known. *)
Definition with_features (own : list string) : Prop := ~ In "Implicit" own /\ ~ In "Polynomial" own.
