(** C219: rebuilding the decomposed matrices from a kernel principal component analysis. *)
From Verif Require Import Base.
From mathcomp Require Import all_ssreflect all_algebra.
From Verif Require Import NystromM MatrixSpec NystromMProofs KpcaM KpcaSpec KpcaMProofs PerturbSpec SolverExamples PerturbExamples SubspaceExamples BestProofs Rebuild RebuildProofs.
Set Implicit Arguments. Unset Strict Implicit. Unset Printing Implicit Defensive.
Import GRing.Theory Num.Theory.
Local Open Scope ring_scope.

(** Whatever is done to a model, none of the three members returns anything unless the user has
    assigned the attribute it reads. *)
Theorem C219_missing_refuted :
  forall (R : rcfType) (n d q : nat) (v : 'rV[R]_q) (os : list (kpca_op R n d q)),
    let a := run (init n d v) os in
    ((forall H, ~ List.In (AssignHidden d H) os) ->
       K_reconstructed a = Err EAttributeError /\
       forall m (phi : result 'M[R]_(m, d)) (k : result 'M[R]_(m, n)) x, reconstruct a DualSide phi k <> Ok x) /\
    ((forall U, ~ List.In (AssignWeight n U) os) ->
       C_reconstructed a = Err EAttributeError /\
       forall m (phi : result 'M[R]_(m, d)) (k : result 'M[R]_(m, n)) x, reconstruct a PrimalSide phi k <> Ok x).
Proof.
move=> R n d q v os a; split=> N.
  have A : a_hidden a = None by apply: hidden_missing.
  rewrite /K_reconstructed /reconstruct /reconstruct_dual A. by split=> // m phi [].
have A : a_weight a = None by apply: weight_missing.
rewrite /C_reconstructed /reconstruct /reconstruct_primal A. by split=> // m [].
Qed.
Print Assumptions C219_missing_refuted.

(** Once the solution in dual has been assigned, the rebuilt kernel matrix is off by the number of
    points; multiplied by it, no matrix of its rank is closer to the kernel matrix. *)
Theorem C219_kernel_partial :
  forall (R : rcfType) n (K : 'M[R]_n) (s : 'rV[R]_n) (V : 'M[R]_n), eigendecomposition K s V -> psd K -> (0 < n)%N ->
  forall (eps : R) (k : nat) (Hk : (k <= n)%N), 0 <= eps ->
  forall d (v : 'rV[R]_(nystrom_dim eps (eigs_values Hk s))),
    let a := run (init n d v) [:: Solve n d (dual_vals eps Hk s); AssignHidden d (dual_param eps Hk s V)] in
    exists Kr, K_reconstructed a = Ok Kr /\
      (\rank Kr <= nystrom_dim eps (eigs_values Hk s))%N /\
      frobenius2 (K - n%:R *: Kr) = \sum_(j | left_out s eps k j) s 0 j ^+ 2 /\
      forall M : 'M[R]_n, (\rank M <= nystrom_dim eps (eigs_values Hk s))%N ->
        frobenius2 (K - n%:R *: Kr) <= frobenius2 (K - M) /\
        forall beta : R, 0 <= beta -> within beta K M -> within beta K (n%:R *: Kr).
Proof.
move=> R n K s V E PK n0 eps k Hk He d v a.
pose Phi := nystrom_sample eps Hk s V.
exists (n%:R^-1 *: (Phi *m Phi^T)). split.
  rewrite /a /K_reconstructed /= /dual_param /dual_vals linearZ /= -scalemxAr -scalemxAl.
  by rewrite (truncation s V Hk He).
have nz : n%:R != 0 :> R by rewrite pnatr_eq0 -lt0n.
split.
  by apply: leq_trans (truncation_rank s V eps Hk); apply: mxrank_scale.
rewrite scalerA divff // scale1r.
split; first exact: (nystrom_error E). move=> M HM. split; first exact: (nystrom_best E PK).
move=> beta B0; exact: (nystrom_best_operator E PK).
Qed.
Print Assumptions C219_kernel_partial.

(** So the name is wrong even when every component is kept: the result is the kernel matrix
    divided by the number of points. *)
Theorem C219_scale_refuted :
  (forall (R : rcfType) n (K : 'M[R]_n) (s : 'rV[R]_n) (V : 'M[R]_n), eigendecomposition K s V ->
   forall (eps : R) (k : nat) (Hk : (k <= n)%N), 0 <= eps -> (forall j, ~~ left_out s eps k j) ->
   forall d (v : 'rV[R]_(nystrom_dim eps (eigs_values Hk s))),
     K_reconstructed (run (init n d v) [:: Solve n d (dual_vals eps Hk s); AssignHidden d (dual_param eps Hk s V)]) =
     Ok (n%:R^-1 *: K)) /\
  (forall R : rcfType, let K := diag_mx (ladder R) in
     eigendecomposition K (ladder R) 1%:M /\ (forall j, ~~ left_out (ladder R) 1 2 j) /\ 2%:R^-1 *: K <> K).
Proof.
split.
  move=> R n K s V E eps k Hk He N d v.
  rewrite /K_reconstructed /= /dual_param /dual_vals linearZ /= -scalemxAr -scalemxAl.
  by rewrite (truncation s V Hk He) (truncation_full E Hk He N).
move=> R K. split; first exact: ladder_decomposition. split; first exact: ladder_kept.
move=> /matrixP /(_ 0 0). rewrite !mxE /= mulr1n mulr1 => H.
have := congr1 (fun x => x * 2%:R) H. rewrite mulVf ?pnatr_eq0 // mul1r => /eqP.
by rewrite -[1]/(1%:R) eqr_nat.
Qed.
Print Assumptions C219_scale_refuted.

(** Rebuilding in dual projects the rows of the kernel matrix on the solution; on the sample this is the
    closest matrix of its rank, without any factor. *)
Theorem C219_dual_partial :
  forall (R : rcfType) n (K : 'M[R]_n) (s : 'rV[R]_n) (V : 'M[R]_n), eigendecomposition K s V -> psd K ->
  forall (eps : R) (k : nat) (Hk : (k <= n)%N), 0 <= eps ->
  forall d (v : 'rV[R]_(nystrom_dim eps (eigs_values Hk s))) (os : list (kpca_op R n d _)),
    (forall H, ~ List.In (AssignHidden d H) os) ->
    let a := run (init n d v) (AssignHidden d (dual_param eps Hk s V) :: os) in
    (forall m (phi : result 'M[R]_(m, d)) (x : 'M[R]_(m, n)), exists y,
       reconstruct a DualSide phi (Ok x) = Ok (inr y) /\
       reconstruct a DualSide phi (Ok y) = Ok (inr y) /\
       (exists c, y = c *m (dual_param eps Hk s V)^T) /\
       forall c, frobenius2 (x - y) <= frobenius2 (x - c *m (dual_param eps Hk s V)^T)) /\
    (forall phi : result 'M[R]_(n, d), exists y,
       reconstruct a DualSide phi (Ok K) = Ok (inr y) /\
       frobenius2 (K - y) = \sum_(j | left_out s eps k j) s 0 j ^+ 2 /\
       forall M : 'M[R]_n, (\rank M <= nystrom_dim eps (eigs_values Hk s))%N -> frobenius2 (K - y) <= frobenius2 (K - M)).
Proof.
move=> R n K s V E PK eps k Hk He d v os N a.
have A : a_hidden a = Some (dual_param eps Hk s V) :=
  @hidden_kept R n d _ os (step (init n d v) (AssignHidden d (dual_param eps Hk s V))) _ N (erefl _).
have O : orthonormal (dual_param eps Hk s V) := param_orthonormal E eps Hk.
rewrite /reconstruct /reconstruct_dual A /=. split.
  move=> m phi x. exists (x *m (dual_param eps Hk s V *m (dual_param eps Hk s V)^T)). split=> //. split.
    by rewrite -mulmxA (projector O).1.
  split; last by move=> c; exact: nearest_rows.
  by exists (x *m dual_param eps Hk s V); rewrite mulmxA.
move=> phi. exists (nystrom_sample eps Hk s V *m (nystrom_sample eps Hk s V)^T).
split; first by rewrite /dual_param (truncation_rebuilt E Hk He). split; first exact: (nystrom_error E).
by move=> M HM; exact: (nystrom_best E PK).
Qed.
Print Assumptions C219_dual_partial.

(** In primal, once the solution has been assigned: the second moment is rebuilt as closely as its rank
    permits, and so are the features of the sample.  Other features are projected on the
    components. *)
Theorem C219_primal_partial :
  forall (R : rcfType) n d (Phi : 'M[R]_(n, d)) (s : 'rV[R]_d) (V : 'M[R]_d),
    eigendecomposition (second_moment Phi) s V -> (0 < n)%N ->
  forall (eps : R) (k : nat) (Hk : (k <= d)%N), 0 <= eps ->
  forall v : 'rV[R]_(nystrom_dim eps (eigs_values Hk s)),
    let U := primal_param eps Hk s V in
    let a := run (init n d v) [:: Solve n d (primal_vals eps Hk s); AssignWeight n U] in
    (exists Cr, C_reconstructed a = Ok Cr /\
       frobenius2 (second_moment Phi - Cr) = \sum_(j | left_out s eps k j) s 0 j ^+ 2 /\
       forall M : 'M[R]_d, (\rank M <= nystrom_dim eps (eigs_values Hk s))%N ->
         frobenius2 (second_moment Phi - Cr) <= frobenius2 (second_moment Phi - M)) /\
    (forall k0 : result 'M[R]_n, exists Y,
       reconstruct a PrimalSide (Ok Phi) k0 = Ok (inl Y) /\
       frobenius2 (Phi - Y) = n%:R * (\sum_(j | left_out s eps k j) s 0 j) /\
       forall M : 'M[R]_(n, d), (\rank M <= nystrom_dim eps (eigs_values Hk s))%N -> frobenius2 (Phi - Y) <= frobenius2 (Phi - M)) /\
    (forall m (k0 : result 'M[R]_(m, n)) (x : 'M[R]_(m, d)), exists y,
       reconstruct a PrimalSide (Ok x) k0 = Ok (inl y) /\
       reconstruct a PrimalSide (Ok y) k0 = Ok (inl y) /\
       (exists c, y = c *m U^T) /\
       forall c, frobenius2 (x - y) <= frobenius2 (x - c *m U^T)).
Proof.
move=> R n d Phi s V E n0 eps k Hk He v U a.
have O : orthonormal U := param_orthonormal E eps Hk.
split; last split.
- exists (nystrom_sample eps Hk s V *m (nystrom_sample eps Hk s V)^T).
  split; first by rewrite /C_reconstructed /= /U /primal_param /primal_vals (truncation s V Hk He).
  split; first exact: (nystrom_error E). by move=> M HM; exact: (nystrom_best E (second_moment_psd Phi)).
- move=> k0. exists (Phi *m (U *m U^T)). split=> //. split; first exact: (features_error E).
  by move=> M HM; exact: (features_best E).
move=> m k0 x. exists (x *m (U *m U^T)). split=> //. split.
  by rewrite /= /reconstruct_primal /= -mulmxA (projector O).1.
split; last by move=> c; exact: nearest_rows. by exists (x *m U); rewrite mulmxA.
Qed.
Print Assumptions C219_primal_partial.

(** One component of the diagonal matrix of 1 and 2: solved and assigned, the rebuilt matrix has a 1 where the
    kernel matrix has a 2. *)
Example C219_nontrivial (R : rcfType) :
  let K := diag_mx (ladder R) in
  eigendecomposition K (ladder R) 1%:M /\ psd K /\
  nystrom_dim (1 / 2%:R) (eigs_values (isT : (1 <= 2)%N) (ladder R)) = 1%N /\
  let H : 'M[R]_(2, 1) := \matrix_(i, j) (i == 1)%:R in
  let a := run (init 2 3 0) [:: Solve 2 3 (1%:M : 'rV[R]_1); Evaluate R 2 3 1; AssignHidden 3 H] in
  exists Kr, K_reconstructed a = Ok Kr /\ Kr 1 1 = 1 /\ K 1 1 = 2%:R /\
  C_reconstructed a = Err EAttributeError.
Proof.
split; first exact: ladder_decomposition. split; first exact: ladder_psd. split; first by apply: one_kept; rewrite mxE.
eexists. split; first by []. split; last by rewrite !mxE.
by rewrite mxE big_ord1 !mxE big_ord1 !mxE /= mulr1n !mulr1.
Qed.
