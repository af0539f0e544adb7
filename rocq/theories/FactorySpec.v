(** Vocabulary for names. *)
From Coq Require Import Ascii.
From Verif Require Import Base Factory.
Open Scope string_scope.

(** Two letters that differ in case only, or the same character. *)
Definition alphabet : list (ascii * ascii) :=
  [("A","a");("B","b");("C","c");("D","d");("E","e");("F","f");("G","g");("H","h");("I","i");("J","j");("K","k");("L","l");
   ("M","m");("N","n");("O","o");("P","p");("Q","q");("R","r");("S","s");("T","t");("U","u");("V","v");("W","w");("X","x");
   ("Y","y");("Z","z")]%char.
Definition same_letter (a b : ascii) : Prop := a = b \/ In (a, b) alphabet \/ In (b, a) alphabet.

(** [same_name skip s c]: [s] spells [c] up to case and characters satisfying [skip]. *)
Inductive same_name (skip : ascii -> Prop) : string -> string -> Prop :=
| SameEnd : same_name skip "" ""
| SameSkip a s c : skip a -> same_name skip s c -> same_name skip (String a s) c
| SameLetter a b s c : ~ skip a -> same_letter a b -> same_name skip s c -> same_name skip (String a s) (String b c).
Definition underscore (a : ascii) : Prop := a = "_"%char.
Definition blank (a : ascii) : Prop := a = "_"%char \/ a = " "%char.
Definition no_skip (a : ascii) : Prop := False.

(** The names of the documentation with their classes
    (docs/source/kernel/*/*.csv, column Factory Type). *)
Definition documented_names : list (string * string) :=
  [("linear", "Linear"); ("rbf", "RBF"); ("laplacian", "Laplacian"); ("polynomial", "Polynomial"); ("cosine", "Cosine");
   ("sigmoid", "Sigmoid"); ("rff", "RFF"); ("nystrom", "Nystrom"); ("explicit_nn", "ExplicitNN");
   ("implicit_nn", "ImplicitNN"); ("uniform", "Uniform"); ("triangular", "Triangular"); ("epanechnikov", "Epanechnikov");
   ("quartic", "Quartic"); ("triweight", "Triweight"); ("tricube", "Tricube"); ("exponential", "Exponential");
   ("logistic", "Logistic"); ("silverman", "Silverman"); ("indicator", "Indicator"); ("hat", "Hat");
   ("additive_chi_2", "AdditiveChi2"); ("skewed_chi_2", "SkewedChi2")].
(** Kernel classes without underscore in their name: all but the private base. *)
Definition public_kernel (c : string) : Prop := In c kernel_dir /\ c <> "_BaseKernel" /\ c <> "factory".
