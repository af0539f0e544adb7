(** What the plots of kerch put on the axes (kerch/plot/matplotlib.py, kerch/monitor/module.py).
    Definitions only. *)
From Coq Require Import QArith.
From Verif Require Import Base.
Open Scope nat_scope.
Open Scope string_scope.
Open Scope list_scope.

(** The part of the axes of matplotlib that the functions change.  The ticks, the colours and the
    colour bar are left out. *)
Record axes (M : Type) : Type := Axes {
  title : option string; xlabel : option string; ylabel : option string; image : option M; bars : list (nat * Q); logscale : bool }.
Arguments Axes {M}. Arguments title {M}. Arguments xlabel {M}. Arguments ylabel {M}. Arguments image {M}. Arguments bars {M}. Arguments logscale {M}.
Definition blank {M} : axes M := Axes None None None None [] false.
Definition set_title {M} (t : string) (a : axes M) : axes M := Axes (Some t) (xlabel a) (ylabel a) (image a) (bars a) (logscale a).
Definition set_xlabel {M} (t : option string) (a : axes M) : axes M := Axes (title a) t (ylabel a) (image a) (bars a) (logscale a).
Definition set_ylabel {M} (t : option string) (a : axes M) : axes M := Axes (title a) (xlabel a) t (image a) (bars a) (logscale a).
Definition imshow {M} (m : M) (a : axes M) : axes M := Axes (title a) (xlabel a) (ylabel a) (Some m) (bars a) (logscale a).
(** [Axes.bar(x, heights)] with a number [x]: numpy broadcasts it, all bars are at [x]. *)
Definition bar_at {M} (x : nat) (hs : list Q) (a : axes M) : axes M :=
  Axes (title a) (xlabel a) (ylabel a) (image a) (bars a ++ map (fun h => (x, h)) hs) (logscale a).
Definition set_log {M} (a : axes M) : axes M := Axes (title a) (xlabel a) (ylabel a) (image a) (bars a) true.

(** [_get_fig_ax] (matplotlib.py:9-16): the axes that are given (known to be axes), new ones
    otherwise. *)
Definition get_ax {M} (ax : option (axes M)) : axes M := match ax with Some a => a | None => blank end.
Definition is_none {A} (o : option A) : bool := match o with None => true | Some _ => false end.
(** [_plot_matrix] (matplotlib.py:19-43). *)
Definition plot_matrix {M} (m : M) (t x_label y_label : option string) (labels : bool) (ax : option (axes M)) : axes M :=
  let a := imshow m (get_ax ax) in
  let a := match t with Some t => if labels then set_title t a else a | None => a end in
  let a := if is_none x_label && labels then set_xlabel x_label a else a in
  if is_none y_label && labels then set_ylabel y_label a else a.

(** The functions that plot a matrix (matplotlib.py:46-223), with the title and the labels that
    they pass; [plot_hidden_correlation] plots the product of the matrix with its transpose. *)
Inductive plot : Type := PlotK | PlotKReconstructed | PlotHidden | PlotHiddenCorrelation | PlotC | PlotPhi | PlotW | PlotSample | PlotForward.
Definition announced (p : plot) : string * string * string :=
  match p with
  | PlotK => ("Kernel Matrix", "num_sample", "num_sample")
  | PlotKReconstructed => ("Reconstructed Kernel Matrix", "num_sample", "num_sample")
  | PlotHidden => ("Hidden Variables", "num_sample", "dim_output")
  | PlotHiddenCorrelation => ("Correlation of the Hidden Variables", "num_sample", "num_sample")
  | PlotC => ("Correlation", "dim_feature", "dim_feature")
  | PlotPhi => ("Feature Map", "num_sample", "dim_feature")
  | PlotW => ("Weights", "dim_feature", "dim_output")
  | PlotSample => ("Sample", "num_sample", "dim_intput")
  | PlotForward => ("Forward", "num_sample", "dim_output")
  end.
Definition run_plot {M} (gram : M -> M) (p : plot) (m : M) (labels : bool) (ax : option (axes M)) : axes M :=
  let '(t, x, y) := announced p in
  plot_matrix (match p with PlotHiddenCorrelation => gram m | _ => m end) (Some t) (Some x) (Some y) labels ax.

(** [plot_eigenvalues] (matplotlib.py:226-257); the values are a vector, which [squeeze] makes a
    number when it has one entry. *)
Definition plot_eigenvalues {M} (vals : list Q) (labels log : bool) (ax : option (axes M)) : result (axes M) :=
  if Nat.eqb (List.length vals) 1 then Err EAssertionError
  else let a := bar_at (List.length vals) vals (get_ax ax) in
       let a := if labels then set_ylabel (Some "Magnitude") (set_xlabel (Some "dim_output") (set_title "Eigenvalues" a)) else a in
       Ok (if log then set_log a else a).

(** [scatter] (module.py:58-100): number of points drawn, whether they are coloured, number of
    values of the heat map.  [target] is the one of the view ([View.target],
    kerch/level/single_view/View.py:177-183, raises [NotInitializedError] when it has not been set;
    [except NotImplementedError or AttributeError] catches [NotImplementedError] only).
    [forward rows columns] is the number of rows of the output for an input of that size.  Indexing
    the columns of the sample is not modelled. *)
Record picture : Type := Picture { drawn : nat; coloured : bool; heat : option nat }.
Definition read_target (target : option nat) : result nat := match target with Some n => Ok n | None => Err ENotInitialized end.
(** [torch.cat] along the columns of two matrices of 50 rows and 50 columns (module.py:92-93), the
    output seen as a matrix of 50 rows and 50 columns (module.py:97-98). *)
Definition heat_map (forward : nat -> nat -> result nat) : result nat :=
  bind (forward 50 (50 + 50)) (fun rows => if Nat.eqb rows (50 * 50) then Ok rows else Err ERuntimeError).
Definition scatter (num dim_input : nat) (target : option nat) (forward : nat -> nat -> result nat) (with_heat : bool) : result picture :=
  bind (match read_target target with
        | Ok _ => Ok true
        | Err ENotImplemented => Ok false
        | Err e => Err e
        end) (fun coloured =>
  if with_heat && Nat.eqb dim_input 2
  then bind (heat_map forward) (fun h => Ok (Picture num coloured (Some h)))
  else Ok (Picture num coloured None)).
