(** Lists of transforms: [TransformTree.beautify_transform]
    ([kerch/transform/TransformTree.py:34-88]) and the way a kernel handles the
    list it is given ([kerch/kernel/kernel.py:39-56,102-125]).
    Definitions only. *)
From Verif Require Import Base.
Open Scope string_scope.

(** The five transform classes ([kerch/transform/all/*.py]). *)
Inductive cls : Type := Sphere | MinCenter | MeanCenter | UnitVar | MinMax.

Definition cls_eqb (a b : cls) : bool :=
  match a, b with
  | Sphere, Sphere | MinCenter, MinCenter | MeanCenter, MeanCenter
  | UnitVar, UnitVar | MinMax, MinMax => true
  | _, _ => false
  end.

(** What a user may put in a list of transforms: a transform class, some other
    class, or anything that is not a class (a name). *)
Inductive treq : Type := RCls (c : cls) | ROther | RName (s : string).

(** [TransformTree._all_transform] (TransformTree.py:34-47). *)
Definition named_transform (s : string) : option (list cls) :=
  if String.eqb s "normalize" then Some [Sphere]
  else if String.eqb s "center" then Some [MeanCenter]
  else if String.eqb s "sphere" then Some [Sphere]
  else if String.eqb s "min" then Some [MinCenter]
  else if String.eqb s "variance" then Some [UnitVar]
  else if String.eqb s "standard" then Some [MeanCenter; UnitVar]
  else if String.eqb s "minmax" then Some [MinMax]
  else if String.eqb s "unit_sphere_normalization" then Some [Sphere]
  else if String.eqb s "mean_centering" then Some [MeanCenter]
  else if String.eqb s "minimum_centering" then Some [MinCenter]
  else if String.eqb s "unit_variance_normalization" then Some [UnitVar]
  else if String.eqb s "minmax_normalization" then Some [MinMax]
  else if String.eqb s "standardize" then Some [MeanCenter; UnitVar]
  else if String.eqb s "minmax_rescaling" then Some [MinCenter; MinMax]
  else None.

(** The first loop (TransformTree.py:60-76): names are expanded, a class that is
    not a transform is silently skipped, an unknown name raises [NameError]. *)
Fixpoint expand_requests (l : list treq) : result (list cls) :=
  match l with
  | [] => Ok []
  | RCls c :: l' => bind (expand_requests l') (fun r => Ok (c :: r))
  | ROther :: l' => expand_requests l'
  | RName s :: l' =>
      match named_transform s with
      | None => Err ENameError
      | Some cs => bind (expand_requests l') (fun r => Ok (cs ++ r)%list)
      end
  end.

(** [l.pop(i)] for an index in range. *)
Fixpoint pop_at (i : nat) (l : list cls) : list cls :=
  match i, l with
  | _, [] => []
  | O, _ :: l' => l'
  | S i', c :: l' => c :: pop_at i' l'
  end.

(** The second loop (TransformTree.py:78-86): Python iterates over the list by
    position [i] while the body pops the element at position [idx] of the same
    list.  The iteration ends when [i] reaches the current length; [fuel] is an
    upper bound of the number of turns (the length at the start is enough: [i]
    grows by one at each turn and the list never grows). *)
Fixpoint dedup_loop (fuel : nat) (i idx : nat) (prev : option cls) (l : list cls) : list cls :=
  match fuel with
  | O => l
  | S fuel' =>
      match nth_error l i with
      | None => l
      | Some cur =>
          if match prev with Some p => cls_eqb cur p | None => false end
          then dedup_loop fuel' (S i) idx prev (pop_at idx l)
          else dedup_loop fuel' (S i) (S idx) (Some cur) l
      end
  end.

Definition dedup (l : list cls) : list cls := dedup_loop (List.length l) 0 0 None l.

(** [beautify_transform] (TransformTree.py:49-88) on a list. *)
Definition beautify (l : list treq) : result (list cls) :=
  bind (expand_requests l) (fun cs => Ok (dedup cs)).

(** * The list object a caller hands to a kernel *)

(** What is fixed by the kernel class: [_required_transform] (kernel.py:98-100;
    the class attribute is appended as one list element, so a list of classes
    would be an unhashable name: no class of the toolbox does that) and
    [_naturally_normalized] (kernel.py:76-78). *)
Record kclass : Type := KClass { kc_required : option treq; kc_normalized : bool }.

(** [_simplify_transform] (kernel.py:102-120): returns the simplified list and
    the new contents of the list object it was given, to which the required
    transform is appended in place (line 108).  The [pop(0)] of line 116 acts on
    the new list made by [beautify_transform]. *)
Definition simplify (k : kclass) (l : list treq) : result (list cls) * list treq :=
  let l' := match kc_required k with Some r => (l ++ [r])%list | None => l end in
  (bind (beautify l') (fun cs =>
     match cs with
     | Sphere :: cs' => if kc_normalized k then Ok cs' else Ok cs
     | _ => Ok cs
     end), l').

(** [Kernel.__init__] (kernel.py:42-56): the legacy flags [center] and
    [normalize] append to the list passed as [kernel_transform]. *)
Definition kernel_init (k : kclass) (center normalize : bool) (l : list treq)
  : result (list cls) * list treq :=
  let l1 := if center then (l ++ [RName "mean_centering"])%list else l in
  let l2 := if normalize then (l1 ++ [RName "unit_sphere_normalization"])%list else l1 in
  simplify k l2.

(** [_get_transform] (kernel.py:122-125), called by [phi] and [k] with the
    [transform] argument of the user (kernel.py:207-208,243-245). *)
Definition get_transform (k : kclass) (default : list cls) (l : option (list treq))
  : result (list cls) * option (list treq) :=
  match l with
  | None => (Ok default, None)
  | Some l => let '(r, l') := simplify k l in (r, Some l')
  end.

(** A caller that keeps one list object and passes it [n] times. *)
Fixpoint repeat_calls (k : kclass) (n : nat) (l : list treq)
  : list (result (list cls)) * list treq :=
  match n with
  | O => ([], l)
  | S n' =>
      let '(r, l') := simplify k l in
      let '(rs, l'') := repeat_calls k n' l' in
      (r :: rs, l'')
  end.
