(** Multi-view models ([kerch/level/multi_view/MultiView.py], [MVKPCA.py]).  Definitions only.

    No multi-view level can be created (see Ctor.v), and the attributes [weight] and [hidden]
    its methods read do not exist.  What is modelled here are the methods themselves on the
    weights they are meant to read, a list of rows. *)
From Verif Require Import Base.
Open Scope nat_scope.

Section MultiView.
  Context {F : Type}.

  (** The views by name, each with its feature dimension and the number under which it was
      attached; and the count of attached views. *)
  Record mview : Type := MView { m_views : dict (nat * nat); m_count : nat }.
  Definition mview0 : mview := MView [] 0.

  (** [attach_view] (lines 46-81): a view without a name gets the count as its name.  The
      sizes of the samples are taken to agree. *)
  Definition attach_view (name_of : nat -> string) (s : mview) (name : option string) (dim : nat) : mview :=
    let key := match name with Some k => k | None => name_of (m_count s) end in
    MView (dset (m_views s) key (dim, m_count s)) (S (m_count s)).

  (** [dims_feature], [dims_feature_cumulative], [dim_feature] (93-116). *)
  Definition dims_feature (s : mview) : list nat := map (fun kv => fst (snd kv)) (m_views s).
  Fixpoint cumsum (acc : nat) (l : list nat) : list nat :=
    match l with [] => [] | x :: l' => (acc + x) :: cumsum (acc + x) l' end.
  Definition dims_feature_cumulative (s : mview) : list nat := cumsum 0 (dims_feature s).
  Definition dim_feature (s : mview) : nat := list_sum (dims_feature s).

  (** [a[lo:hi]] with bounds that are not negative. *)
  Definition slice {A} (lo hi : nat) (l : list A) : list A := firstn (hi - lo) (skipn lo l).
  (** [_weight_from_view] (158-163). *)
  Definition weight_from_view (s : mview) (weight : list F) (id : nat) : result (list F) :=
    let dim := dims_feature_cumulative s in
    match id with
    | O => match nth_error dim 0 with Some d => Ok (firstn d weight) | None => Err EIndexError end
    | S i => match nth_error dim i, nth_error dim (S i) with
             | Some lo, Some hi => Ok (slice lo hi weight)
             | _, _ => Err EIndexError
             end
    end.
  (** The weights a view reads through the function given to [attach_to] (78-79). *)
  Definition view_weight (s : mview) (weight : list F) (name : string) : result (list F) :=
    match dget (m_views s) name with
    | Some (_, id) => weight_from_view s weight id
    | None => Err EKeyError
    end.

  (** [view] (119-126) with a name or a number. *)
  Definition view_dim (s : mview) (name : string) : result nat :=
    match dget (m_views s) name with Some (d, _) => Ok d | None => Err EKeyError end.

  (** [_project] (MVKPCA.py:43-74): the views to predict are those whose name is not among
      the known keys, which may be names or numbers; without any known point it raises. *)
  Inductive vkey : Type := KName (s : string) | KNum (n : nat).
  Definition known_name (known : list (vkey * option nat)) (k : string) : bool :=
    existsb (fun p => match fst p with KName k' => String.eqb k k' | KNum _ => false end) known.
  Definition to_predict (s : mview) (known : list (vkey * option nat)) : list string :=
    filter (fun k => negb (known_name known k)) (dkeys (m_views s)).
  Fixpoint known_points (known : list (vkey * option nat)) (names : list string) (acc : option nat) : result (option nat) :=
    match names with
    | [] => Ok acc
    | k :: names' =>
        match find (fun p => match fst p with KName k' => String.eqb k k' | KNum _ => false end) known with
        | Some (_, Some m) => match acc with
                              | None => known_points known names' (Some m)
                              | Some m' => if Nat.eqb m' m then known_points known names' acc else Err EAssertionError
                              end
        | _ => known_points known names' acc
        end
    end.
  Definition project_names (s : mview) (known : list (vkey * option nat)) : result (list string) :=
    match known_points known (dkeys (m_views s)) None with
    | Err e => Err e
    | Ok None => Err EAssertionError
    | Ok (Some _) => Ok (to_predict s known)
    end.

  (** [predict] in primal (89-113): how one row of the projected features is handed to the
      views to predict. *)
  Fixpoint hand_out (s : mview) (row : list F) (dim : nat) (names : list string) : result (list (string * list F)) :=
    match names with
    | [] => Ok []
    | k :: names' => bind (view_dim s k) (fun d => bind (hand_out s row d names') (fun r => Ok ((k, slice dim d row) :: r)))
    end.
  Definition predict_parts (s : mview) (row : list F) (names : list string) : result (list (string * list F)) :=
    hand_out s row 0 names.
End MultiView.
