(** The default types and the smallest value ([kerch/utils/type.py]) and who reads them.
    Definitions only. *)
From Coq Require Import QArith.
From Verif Require Import Base.
Open Scope string_scope.
Open Scope list_scope.

(** [torch.dtype]; the other ones are numbered. *)
Inductive dtype : Type := F16 | F32 | F64 | I16 | I32 | I64 | OtherType (n : nat).
Definition dtype_eq_dec (a b : dtype) : {a = b} + {a <> b}.
Proof. decide equality. apply Nat.eq_dec. Defined.

(** The globals of [utils/type.py]: [FTYPE] (line 5), [ITYPE] (line 6) and [EPS] (lines 72, 75),
    a tensor with a type of its own. *)
Record globals : Type := G { g_f : dtype; g_i : dtype; g_eps : Q * dtype }.
Definition defaults : globals := G F32 I32 (1 # 10000000, F32).

(** The names, and the values that they stand for. *)
Inductive name : Type := FTYPE | ITYPE | EPS.
Inductive value : Type := VType (d : dtype) | VEps (e : Q) (d : dtype).
Definition get (g : globals) (n : name) : value :=
  match n with FTYPE => VType (g_f g) | ITYPE => VType (g_i g) | EPS => VEps (fst (g_eps g)) (snd (g_eps g)) end.

(** [utils.NAME]: [kerch.utils] gets the name from [utils/type.py] each time, as lazy_loader does not
    keep it (see [Lazy.v]).  [from ..utils import NAME] and [from .type import NAME]: the module has
    a name of its own, which keeps the value of the moment at which the module was loaded. *)
Inductive access : Type := Through | Copied.
(** Every module that reads one of the names. *)
Definition readers : list (string * name * access) :=
  [("feature.sample", FTYPE, Through);                     (* sample.py:13, 189 *)
   ("level._Level", FTYPE, Through);                       (* _Level.py:7, 74, 88 *)
   ("level._View", FTYPE, Through);                        (* _View.py:15, 57, 58, 79, 91, 97 *)
   ("level._KPCA", FTYPE, Through);                        (* _KPCA.py:10, 23, 317 *)
   ("level._KPCA", EPS, Through);                          (* _KPCA.py:129, 163 *)
   ("level._PPCA", FTYPE, Through);                        (* _PPCA.py:10, 20, 248, 264, 285, 295 *)
   ("level.single_view.LSSVM", FTYPE, Through);            (* LSSVM.py:7, 25, 55, 78, 82, 86 *)
   ("level.single_view.Ridge", FTYPE, Through);            (* Ridge.py:2, 25, 39 *)
   ("level.single_view.View", FTYPE, Copied);              (* View.py:17-18, 68, 96, 113 *)
   ("kernel.distance._distance", FTYPE, Through);          (* _distance.py:6, 33 *)
   ("kernel.statistics.exponential", FTYPE, Through);      (* exponential.py:13, 81 *)
   ("kernel.vision.skewed_chi_2", FTYPE, Through);         (* skewed_chi_2.py:13, 39 *)
   ("kernel.vision.skewed_chi_2", EPS, Through);           (* skewed_chi_2.py:72 *)
   ("kernel.vision.additive_chi_2", EPS, Through);         (* additive_chi_2.py:13, 46 *)
   ("kernel.time.indicator", FTYPE, Through);              (* indicator.py:11, 68, 78, 137 *)
   ("kernel.time.hat", FTYPE, Through);                    (* hat.py:11, 49 *)
   ("kernel.nystrom", EPS, Through);                       (* nystrom.py:13, 134 *)
   ("kernel.random_features.random_features", FTYPE, Copied); (* random_features.py:16, 56, 67, 127, 157 *)
   ("kernel.random_features.rff", FTYPE, Copied);          (* rff.py:15 *)
   ("transform.all.Sphere", EPS, Copied);                  (* Sphere.py:4, 23, 28, 43, 49 *)
   ("transform.all.MinMaxNormalization", EPS, Copied);     (* MinMaxNormalization.py:4, 25, 31, 34 *)
   ("transform.all.Variance", EPS, Copied);                (* Variance.py:2, 17, 23, 26 *)
   ("data.datasets", FTYPE, Copied);                       (* datasets.py:6, 53 *)
   ("utils.cast", FTYPE, Copied);                          (* cast.py:4, 28, 30: castf *)
   ("utils.cast", ITYPE, Copied);                          (* cast.py:4, 68, 70: casti *)
   ("kerch", FTYPE, Copied);                               (* kerch/__init__.py:33 *)
   ("kerch", ITYPE, Copied)].                              (* kerch/__init__.py:34 *)

(** The globals, and for each loaded module the globals of the moment at which it was loaded. *)
Record state : Type := St { now : globals; at_load : dict globals }.
(** [import kerch] runs the assignments of lines 5, 6 and 75, then takes the two names; the packages
    load nothing else before they are used (kerch/__init__.py:20-39 and the [__init__.py] of the
    packages), apart from the logger and [utils/defaults.py], which read none of the names. *)
Definition imported : state := St defaults [("kerch", defaults)].

(** The argument of a setter: a [torch.dtype] or something else. *)
Inductive argument : Type := Dtype (d : dtype) | NoDtype.
(** What a program does: call [set_ftype] (type.py:19-36), [set_itype] (38-57) or [set_eps] (59-73),
    or load a module, by using anything that needs it. *)
Inductive op : Type := SetF (a : argument) | SetI (a : argument) | SetEps (e : Q) | Load (m : string).
Definition step (s : state) (o : op) : result unit * state :=
  match o with
  | SetF (Dtype d) => (Ok tt, St (G d (g_i (now s)) (g_eps (now s))) (at_load s))
  | SetI (Dtype d) => (Ok tt, St (G (g_f (now s)) d (g_eps (now s))) (at_load s))
  | SetF NoDtype | SetI NoDtype => (Err EAssertionError, s)
  | SetEps e => if Qle_bool 0 e then (Ok tt, St (G (g_f (now s)) (g_i (now s)) (e, g_f (now s))) (at_load s)) else (Err EAssertionError, s)
  | Load m => (Ok tt, if dmem (at_load s) m then s else St (now s) (dset (at_load s) m (now s)))
  end.
Definition run (s : state) (os : list op) : state := fold_left (fun s o => snd (step s o)) os s.

Definition name_eqb (a b : name) : bool := match a, b with FTYPE, FTYPE | ITYPE, ITYPE | EPS, EPS => true | _, _ => false end.
Definition access_of (m : string) (n : name) : option access :=
  option_map snd (find (fun r => String.eqb (fst (fst r)) m && name_eqb (snd (fst r)) n) readers).
(** What the name [n] is in the module [m], once it is loaded. *)
Definition read (s : state) (m : string) (n : name) : option value :=
  match access_of m n with
  | Some Through => Some (get (now s) n)
  | Some Copied => option_map (fun g => get g n) (dget (at_load s) m)
  | None => None
  end.

(** The type of a sum or a concatenation of floating-point matrices, in torch. *)
Definition promote (a b : dtype) : dtype :=
  match a, b with F64, _ | _, F64 => F64 | F32, _ | _, F32 => F32 | _, _ => a end.
(** [_solve_primal] of the LS-SVM (LSSVM.py:47-70) with a kernel without parameters of its own, on
    types: the features and the targets have the type [c] of [castf]; the identity and the number of
    points the current one [l] (line 55, _Level.py:74).  The regularisation is a number, which
    leaves the type of a matrix alone.  [torch.linalg.solve] wants two matrices of the same type. *)
Definition solve_primal_types (c l : dtype) : result dtype :=
  let A := promote (promote (promote c l) c) (promote c l) in
  let B := promote c c in
  if dtype_eq_dec A B then Ok A else Err ERuntimeError.
