(** Distance kernels with the default bandwidth ([kerch/kernel/distance/_distance.py:42-54]).
    Definitions only. *)
From Verif Require Import Base Beautify RVec KernelR.
Open Scope R_scope.

(** One entry of [_implicit(x, y)] of a kernel whose bandwidth was not given: the getter of
    [sigma] (_distance.py:42-54) determines it on the projected sample [s] at the first read
    (distance.py:19-27, distance_squared.py:19-27).  That the value is kept afterwards is the
    subject of [KernelState.v]. *)
Definition default_kernel (k : kern) (d : distance) (s : mat) (x y : vec) : result fl :=
  bind (heuristic d s) (fun sigma => kvalue k d sigma x y).
