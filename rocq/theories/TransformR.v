(** The numerical content of the transforms ([kerch/transform/all/*.py]) on real
    matrices, as an instance of the interface of [TransformTree.v].
    Definitions only. *)
From Verif Require Import Base Beautify TransformTree RVec.
Open Scope R_scope.

(** What a node computes: a matrix, a row of column statistics, a column of norms,
    the row means of a kernel matrix with their mean, or a tensor containing NaN
    (in the model one NaN makes the whole tensor NaN). *)
Inductive val : Type :=
| VMat (m : mat) | VRow (v : vec) | VCol (v : vec) | VMeans (v : vec) (tot : R) | VNaN.

(** [torch.clamp(., min=EPS)]. *)
Definition clamp (x : R) : R := Rmax x EPS.

(** Subtract or divide row by row. *)
Definition sub_rows (m : mat) (s : vec) : mat := map (fun r => zipw Rminus r s) m.
Definition add_rows (m : mat) (s : vec) : mat := map (fun r => zipw Rplus r s) m.
Definition div_rows (m : mat) (s : vec) : mat := map (fun r => zipw (fun v t => v / clamp t) r s) m.
Definition mul_rows (m : mat) (s : vec) : mat := map (fun r => zipw (fun v t => v * clamp t) r s) m.
(** Divide each row by its norm. *)
Definition div_norms (m : mat) (s : vec) : mat := zipw (fun r n => map (fun v => v / clamp n) r) m s.

(** [_explicit_statistics] (MeanCentering.py:9-10, MinMaxNormalization.py:14-20,
    MinimumCentering.py:10-11, Sphere.py:11-12 and 30-31, Variance.py:11-12).  The
    mean of no point and the standard deviation of a single point are NaN; minimum
    and maximum of no point raise an exception, which the model also calls NaN. *)
Definition real_estat (c : cls) (after_min : bool) (v : val) : val :=
  match v with
  | VMat m =>
      match c with
      | Sphere => VCol (map norm m)
      | _ =>
        match m with
        | [] => VNaN
        | _ =>
          match c with
          | MeanCenter => VRow (colwise mean m)
          | MinCenter => VRow (colwise lmin m)
          | MinMax => VRow (colwise (fun l => if after_min then lmax l else lmax l - lmin l) m)
          | _ => match m with
                 | [_] => VNaN
                 | _ => VRow (colwise std m)
                 end
          end
        end
      end
  | _ => VNaN
  end.

(** [_explicit_sample] and [_explicit_oos] (MeanCentering.py:17-19,33-34,
    MinimumCentering.py:13-15,20-21, MinMaxNormalization.py:22-25,30-31,
    Variance.py:14-17,22-23, Sphere.py:20-23,40-43). *)
Definition real_eapp (c : cls) (v s : val) : val :=
  match c, v, s with
  | Sphere, VMat m, VCol n => VMat (div_norms m n)
  | (MeanCenter | MinCenter), VMat m, VRow t => VMat (sub_rows m t)
  | (MinMax | UnitVar), VMat m, VRow t => VMat (div_rows m t)
  | _, _, _ => VNaN
  end.

(** [_revert_explicit] (MeanCentering.py:43-44, MinimumCentering.py:23-24,
    MinMaxNormalization.py:33-34, Variance.py:25-26). *)
Definition real_erev (c : cls) (v s : val) : val :=
  match c, v, s with
  | (MeanCenter | MinCenter), VMat m, VRow t => VMat (add_rows m t)
  | (MinMax | UnitVar), VMat m, VRow t => VMat (mul_rows m t)
  | _, _, _ => VNaN
  end.

(** [torch.sqrt] of a column. *)
Definition some_negative (v : vec) : bool := existsb (fun x => if Rlt_dec x 0 then true else false) v.
Definition real_sqrt (v : val) : val :=
  match v with
  | VCol d => if some_negative d then VNaN else VCol (map sqrt d)
  | _ => VNaN
  end.
Definition real_diag (v : val) : val := match v with VMat m => VCol (diag m) | _ => VNaN end.

(** [_implicit_statistics] of the sample (MeanCentering.py:12-15, Sphere.py:14-18);
    only these two classes are asked. *)
Definition real_istat (c : cls) (v : val) : result val :=
  Ok (match c, v with
      | MeanCenter, VMat [] => VNaN
      | MeanCenter, VMat k => VMeans (map mean k) (mean (map mean k))
      | Sphere, _ => real_sqrt (real_diag v)
      | _, _ => VNaN
      end).

(** Subtract the means of both arguments and add the total mean; divide by both
    norms. *)
Definition center2 (k : mat) (a b : vec) (tot : R) : mat :=
  zipw (fun r x => zipw (fun v y => v - x - y + tot) r b) k a.
Definition scale2 (k : mat) (a b : vec) : mat :=
  zipw (fun r x => zipw (fun v y => v / clamp (x * y)) r b) k a.

(** [_implicit_sample] (MeanCentering.py:21-24, Sphere.py:25-28). *)
Definition real_iapp_sample (c : cls) (v s : val) : val :=
  match c, v, s with
  | MeanCenter, VMat k, VMeans a tot => VMat (center2 k a a tot)
  | Sphere, VMat k, VCol a => VMat (scale2 k a a)
  | _, _, _ => VNaN
  end.

(** [_implicit_statistics_oos] of mean centering (MeanCentering.py:29-31). *)
Definition real_imean_oos (o s : val) : val :=
  match o, s with
  | VMat k, VMeans _ tot => VMeans (map mean k) tot
  | _, _ => VNaN
  end.

(** [_implicit_oos] (MeanCentering.py:36-41, Sphere.py:45-49); the total mean is the
    one coming with the first argument. *)
Definition real_iapp (c : cls) (o tx ty : val) : val :=
  match c, o, tx, ty with
  | MeanCenter, VMat k, VMeans a tot, VMeans b _ => VMat (center2 k a b tot)
  | Sphere, VMat k, VCol a, VCol b => VMat (scale2 k a b)
  | _, _, _, _ => VNaN
  end.

Definition real_transp (v : val) : val := match v with VMat m => VMat (transpose m) | _ => VNaN end.

Section Instance.
  Context {D : Type}.
  (** The base of the tree: features of inputs, a kernel function, the sample. *)
  Variable feat : D -> mat.
  Variable kmat : D -> D -> mat.
  Variable sample : D.

  (** The base of an explicit tree: [_explicit_with_none] or the identity
      (kernel.py:127-135, sample.py:253-262). *)
  Definition explicit_numerics : numerics val D :=
    Numerics val D (Ok (VMat (feat sample))) (fun x => Ok (VMat (feat x)))
      (fun x y => Ok (VMat (kmat x (match y with Some y => y | None => sample end))))
      real_estat real_eapp real_erev real_istat real_iapp_sample real_imean_oos real_diag real_sqrt
      real_iapp real_transp.

  (** The base of an implicit tree: [_implicit_with_none] (kernel.py:137-146). *)
  Definition implicit_numerics : numerics val D :=
    Numerics val D (Ok (VMat (kmat sample sample))) (fun x => Ok (VMat (feat x)))
      (fun x y => Ok (VMat (kmat x (match y with Some y => y | None => sample end))))
      real_estat real_eapp real_erev real_istat real_iapp_sample real_imean_oos real_diag real_sqrt
      real_iapp real_transp.
End Instance.

(** A tree over a sample matrix ([sample.py:253-262]). *)
Definition sample_numerics (sample : mat) : numerics val mat :=
  explicit_numerics (fun x => x) (fun x y => gram x y) sample.

(** [phi_x @ phi_y.T]. *)
Definition real_gram (a b : val) : val :=
  match a, b with VMat m, VMat n => VMat (gram m n) | _, _ => VNaN end.

(** [Kernel.k] in the explicit formulation (kernel.py:240-250) on the explicit tree
    of transforms; [same] is the answer of [equal(x, y)] (utils/tensor.py:32-52), with
    which the second evaluation is skipped.  [Kernel._K] (kernel.py:173-193) is the
    case without arguments on the default list. *)
Definition explicit_k {D : Type} (num : numerics val D) (same : bool) (x y : option nat) (req : option (list treq))
    : M val :=
  mbind (apply num true x None req) (fun a =>
  mbind (if same then mret (Ok a) else apply num true y None req) (fun b =>
  mret (Ok (real_gram a b)))).
