(** The polynomial kernel on real vectors ([kerch/kernel/generic/polynomial.py]).
    Definitions only.  The degree is a natural number; for other degrees the kernel has
    no explicit form and [k] always takes the implicit one. *)
From Coq Require Import Arith Factorial.
From Verif Require Import Base RVec.
Open Scope R_scope.

(** [multichoose(n, k)] (polynomial.py:188-193): all lists of [n] naturals of sum [k]. *)
Definition bump (v : list nat) : list nat := match v with [] => [] | a :: v' => S a :: v' end.
Fixpoint multichoose (n : nat) : nat -> list (list nat) :=
  fix inner (k : nat) : list (list nat) :=
    match k with
    | O => [repeat O n]
    | S k' =>
      match n with
      | O => []
      | S O => [[k]]
      | S n' => map (cons O) (multichoose n' k) ++ map bump (inner k')
      end
    end.

(** [math.comb] *)
Fixpoint comb (n k : nat) : nat :=
  match n, k with
  | _, O => 1
  | O, S _ => 0
  | S n', S k' => comb n' k' + comb n' k
  end.

(** [dim_feature] (polynomial.py:105-120) for a natural degree. *)
Definition dim_feature (degree dim_input : nat) : nat := comb (dim_input + degree) degree.

(** Product of the powers of the coordinates. *)
Fixpoint monomial (x : vec) (p : list nat) : R :=
  match x, p with
  | a :: x', e :: p' => a ^ e * monomial x' p'
  | _, _ => 1
  end.
Definition fact_prod (p : list nat) : R := fold_right (fun e r => INR (fact e) * r) 1 p.

(** [permutation_out] (202-205): the last exponent is that of the offset. *)
Definition feature (degree : nat) (beta : R) (x : vec) (p : list nat) : R :=
  sqrt (INR (fact degree)) / sqrt (fact_prod p) * monomial x (removelast p) * sqrt beta ^ last p O.

(** [_phi_fun] and [_explicit] (183-214, 219-221).  A negative offset has no square
    root.  For degree zero there is a single list of exponents and [casti] squeezes the
    matrix of exponents into a vector, whose elements cannot be iterated over. *)
Definition poly_explicit (dim_input degree : nat) (beta : R) (x : mat) : result mat :=
  if Rlt_dec beta 0 then Err EValueError
  else match degree with
       | O => Err ETypeError
       | _ => Ok (map (fun r => map (feature degree beta r) (multichoose (dim_input + 1) degree)) x)
       end.

(** [_implicit] (216-217). *)
Definition poly (degree : nat) (beta : R) (x y : vec) : R := (dot x y + beta) ^ degree.
Definition poly_implicit (degree : nat) (beta : R) (x y : mat) : mat :=
  map (fun a => map (poly degree beta a) y) x.

(** [k] (229-253), without transforms: [None] stands for the sample.  The second
    argument is replaced by the first one (238). *)
Definition poly_k (dim_input degree : nat) (beta : R) (sample : mat) (x y : option mat) (explicit : option bool) : result mat :=
  let y := x in
  let of o := match o with Some a => a | None => sample end in
  let nx := length (of x) in
  let ny := length (of y) in
  let e := match explicit with
           | Some e => e
           | None => (dim_feature degree dim_input * (nx + ny) <? nx * ny)%nat
           end in
  if e then
    bind (poly_explicit dim_input degree beta (of x)) (fun px =>
    bind (poly_explicit dim_input degree beta (of y)) (fun py => Ok (gram px py)))
  else Ok (poly_implicit degree beta (of x) (of y)).
