(** What an error should say. *)
From Verif Require Import Base Errors.
Open Scope string_scope.
Open Scope list_scope.

(** What is to be said: the message that is written, that of the class of the error otherwise. *)
Definition meant (e : string) (message : option string) : string :=
  match message with
  | Some m => m
  | None => match dget defaults e with Some d => d | None => "" end
  end.
(** The whole text: the name of the class of the object, then what is to be said. *)
Definition full_text (o e : string) (message : option string) : string := ("[" ++ o ++ "] " ++ meant e message)%string.
(** The places where no object is named, and those where the message is not that of the code. *)
Definition without_object : list string :=
  ["level/_View.py:344"; "kernel/network/explicit_nn.py:113"; "kernel/_base_kernel.py:119"; "transform/Transform.py:104"; "transform/Transform.py:111";
   "transform/Transform.py:135"; "transform/Transform.py:142"; "transform/Transform.py:205"; "transform/Transform.py:208"].

(** The ways to pass an object and a message, and a message only. *)
Definition ways (o : string) (m : string) : list (list value * dict value) :=
  [ ([VObject o; VText m], []); ([VObject o], [("message", VText m)]); ([], [("cls", VObject o); ("message", VText m)]); ([], [("message", VText m); ("cls", VObject o)]) ].
Definition ways_anonymous (m : string) : list (list value * dict value) :=
  [ ([VNone; VText m], []); ([VNone], [("message", VText m)]); ([], [("cls", VNone); ("message", VText m)]); ([], [("message", VText m)]) ].
Definition if_any (m : string) : option string := match m with "" => None | _ => Some m end.
