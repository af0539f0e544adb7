(** What is meant by a resolution order, independently of how it is computed. *)
From Verif Require Import Base Classes.
Open Scope nat_scope.
Open Scope string_scope.
Open Scope list_scope.

(** [a] is [b] with some elements left out: same order. *)
Inductive subseq {A} : list A -> list A -> Prop :=
| sub_nil : forall b, subseq [] b
| sub_take : forall x a b, subseq a b -> subseq (x :: a) (x :: b)
| sub_skip : forall x a b, subseq a b -> subseq a (x :: b).

(** What is below the kernel classes of a kernel, and of a level. *)
Definition below_sample : cls := ["Sample"; "Stochastic"; "Cache"; "Module"; "Logger"; "torch.nn.Module"; "object"].
Definition below_kernel : cls := "Kernel" :: "_BaseKernel" :: below_sample.
Definition below_view : cls := "Kernel" :: "_BaseKernel" :: "_View" :: below_sample.
Definition below_distance : cls := "_Distance" :: "Implicit" :: below_kernel.

(** A single-view level class with the classes [lv] above [View], a kernel class with the classes
    [pre] above [Kernel], a distance class with the classes [dist] above [_Distance]: those of
    kerch, and any other that a user derives from them. *)
Definition level_class (lv : list string) : cls := lv ++ "View" :: below_view.
Definition kernel_class (pre : list string) : cls := pre ++ below_kernel.
Definition distance_kernel (pre : list string) : cls := pre ++ "SelectDistance" :: below_distance.
Definition distance_above (dist : list string) : cls := dist ++ below_distance.

(** Classes made at run time have the attributes of another class: [origin] names it. *)
Definition copies_of (fs : list (string * string)) (c : string) : string :=
  match dget fs c with Some b => b | None => c end.
Definition made_from (defs : string -> list string) (fs : list (string * string)) : Prop :=
  forall f b, In (f, b) fs -> defs f = defs b.
Definition found (fs : list (string * string)) (defs : string -> list string) (c : cls) (a : string) : option string :=
  option_map (copies_of fs) (resolve defs c a).

(** The distance that a distance kernel uses ([RBF] and [Laplacian] keep the Euclidean one). *)
Definition used_distance (kernel : cls) (d : option distance) : distance :=
  if is_subclass kernel "RBF" || is_subclass kernel "Laplacian" then DName "euclidean"
  else match d with Some d => d | None => DName "euclidean" end.
(** [own_classes k d own]: the objects of the kernel class [k] with the distance [d] have the
    classes [own] above [Kernel]. *)
Inductive own_classes : cls -> option distance -> list string -> Prop :=
| own_plain : forall pre d, pre <> [] -> ~ In "SelectDistance" pre -> own_classes (kernel_class pre) d pre
| own_distance : forall pre d dist, dist <> [] ->
    distance_class (used_distance (distance_kernel pre) d) = Ok (distance_above dist) ->
    own_classes (distance_kernel pre) d (pre ++ "SelectDistance" :: dist ++ ["_Distance"; "Implicit"]).

(** An object: its class and the attributes that it holds.  Calling a method fails when it is not
    found, or when an attribute that it reads is not there. *)
Record object : Type := Object { o_cls : cls; o_attrs : list string }.
Definition call (defs : string -> list string) (reads : string -> string -> list string) (o : object) (m : string) : result string :=
  match resolve defs (o_cls o) m with
  | None => Err EAttributeError
  | Some c => if forallb (fun a => smem a (o_attrs o)) (reads c m) then Ok c else Err EAttributeError
  end.

(** Deciding [subseq] on names. *)
Fixpoint subseqb (a b : list string) : bool :=
  match a, b with
  | [], _ => true
  | _, [] => false
  | x :: a', y :: b' => if String.eqb x y then subseqb a' b' else subseqb a b'
  end.
Fixpoint nodupb (l : list string) : bool := match l with [] => true | x :: l' => negb (smem x l') && nodupb l' end.
