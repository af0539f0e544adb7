(** Vocabulary for the properties of transform lists. *)
From Verif Require Import Base Beautify.

(** No two neighbours are equal. *)
Fixpoint no_repeat (l : list cls) : Prop :=
  match l with
  | [] => True
  | a :: l' => match l' with [] => True | b :: _ => a <> b end /\ no_repeat l'
  end.

(** Runs of equal neighbours collapsed to one element. *)
Fixpoint merged (l : list cls) : list cls :=
  match l with
  | [] => []
  | a :: l' => match l' with
               | b :: _ => if cls_eqb a b then merged l' else a :: merged l'
               | [] => [a]
               end
  end.

(** [a] is obtained from [b] by deleting elements. *)
Inductive subseq : list cls -> list cls -> Prop :=
| subseq_nil : subseq [] []
| subseq_keep c a b : subseq a b -> subseq (c :: a) (c :: b)
| subseq_drop c a b : subseq a b -> subseq a (c :: b).

(** The classes a request stands for, when it is recognised. *)
Definition recognised (r : treq) : Prop :=
  match r with RName s => named_transform s <> None | _ => True end.
Definition meaning (r : treq) : list cls :=
  match r with
  | RCls c => [c]
  | ROther => []
  | RName s => match named_transform s with Some cs => cs | None => [] end
  end.

(** What the loop keeps, in one pass: an element is dropped when the element [k] places further on,
    [k] being the number of elements dropped before, is the one compared last. *)
Fixpoint kept_late (k : nat) (compared : option cls) (l : list cls) : list cls :=
  match l with
  | [] => []
  | a :: l' =>
      match nth_error l k with
      | None => l
      | Some b =>
          if match compared with Some p => cls_eqb b p | None => false end
          then kept_late (S k) compared l'
          else a :: kept_late k (Some b) l'
      end
  end.
