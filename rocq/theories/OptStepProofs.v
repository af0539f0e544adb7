(** Proofs on the steps of the optimiser. *)
From Verif Require Import Base Cast.
From mathcomp Require Import all_ssreflect all_algebra.
From Verif Require Import OptStep OptStepSpec.
Set Implicit Arguments. Unset Strict Implicit. Unset Printing Implicit Defensive.
Import GRing.Theory Num.Theory.
Local Open Scope ring_scope.

Section Proofs.
  Variables (R : realFieldType) (V : lmodType R) (stf : group V -> param V -> param V).

  Lemma proper_view (p : param V) : proper p -> exists rc, view (p_shape p) = Ok rc.
  Proof. by move=> [r [s [-> H]]]; case: r H => // r _; eexists. Qed.
  Lemma view_proper (p : param V) rc : view (p_shape p) = Ok rc -> proper p.
  Proof. by case E: (p_shape p) => [|[|r] s] //= _; exists r.+1, s. Qed.
  Lemma with_params_same (g : group V) : with_params g (g_params g) = g.
  Proof. by case: g. Qed.

  (** *** Parameters without gradient are left alone *)
  Section Idle.
    Variable one : option (R * bool) -> group V -> param V -> result unit * option (R * bool) * param V.
    Hypothesis O : forall loc g p, p_grad p = None -> one loc g p = (Ok tt, loc, p).
    Lemma idle_params loc g ps rest : (forall p, List.In p ps -> p_grad p = None) ->
      over_params one loc g (ps ++ rest) =
      let: (res, loc', rest') := over_params one loc g rest in (res, loc', ps ++ rest').
    Proof.
      elim: ps => [|p ps IH] H /=; first by case: (over_params _ _ _ _) => [[]].
      rewrite O; last by apply: H; left.
      rewrite IH => [|q Q]; last by apply: H; right.
      by case: (over_params _ _ _ _) => [[]].
    Qed.
    Lemma idle_group loc g : idle g -> over_params one loc g (g_params g) = (Ok tt, loc, g_params g).
    Proof. by move=> H; rewrite -{1}[g_params g]cats0 idle_params //= cats0. Qed.
    Lemma idle_groups loc gs rest : List.Forall (@idle R V) gs ->
      over_groups one loc (gs ++ rest) = let: (res, rest') := over_groups one loc rest in (res, gs ++ rest').
    Proof.
      elim: gs => [|g gs IH] H /=; first by case: (over_groups _ _ _).
      have Hg : idle g by inversion H. have Hgs : List.Forall (@idle R V) gs by inversion H.
      by rewrite idle_group // IH // with_params_same; case: (over_groups _ _ _).
    Qed.
  End Idle.
  Lemma sgd_idle loc g p : p_grad p = None -> sgd_param stf loc g p = (Ok tt, loc, p).
  Proof. by rewrite /sgd_param => ->. Qed.
  Lemma adam_idle loc g p : p_grad p = None -> adam_param stf loc g p = (Ok tt, loc, p).
  Proof. by rewrite /adam_param => ->. Qed.

  (** *** Momentum *)
  Lemma momentum_fails (gs1 gs2 : seq (group V)) g ps1 p ps2 d :
    List.Forall (@idle R V) gs1 -> g_params g = ps1 ++ p :: ps2 -> (forall q, List.In q ps1 -> p_grad q = None) ->
    g_stiefel g = false -> g_momentum g != 0 -> p_grad p = Some d -> proper p ->
    exists gs', sgd_step stf (gs1 ++ g :: gs2) = (Err ENameError, gs') /\ values gs' = values (gs1 ++ g :: gs2).
  Proof.
    move=> I E I1 S M D P. have [[r c] W] := proper_view P.
    rewrite /sgd_step idle_groups //= ; last exact: sgd_idle.
    rewrite E idle_params //=; last exact: sgd_idle.
    rewrite {1}/sgd_param D W S /= /plain (negbTE M).
    case: (p_buffer p) => [b|] /=; (eexists; split; first by reflexivity);
      by rewrite /values !map_cat /= /with_params /= E !map_cat.
  Qed.

  (** *** No momentum *)
  Definition decayed (g : group V) (v d : V) : V := d + g_decay g *: v.
  Lemma decay_eq (g : group V) v d : (if g_decay g != 0 then d + g_decay g *: v else d) = decayed g v d.
  Proof. by rewrite /decayed; case: eqP => [->|]; rewrite ?scale0r ?addr0. Qed.
  Lemma plain_descended loc g p d : g_momentum g = 0 -> p_grad p = Some d ->
    exists p', plain loc g p d = (Ok tt, p') /\ descended decayed g p p'.
  Proof.
    move=> M D; rewrite /plain M eqxx decay_eq. eexists; split; first by reflexivity.
    by rewrite /descended D.
  Qed.
  Section Descend.
    Variable one : option (R * bool) -> group V -> param V -> result unit * option (R * bool) * param V.
    Hypothesis O : forall loc g p, g_stiefel g = false -> g_momentum g = 0 -> (p_grad p <> None -> proper p) ->
      exists loc' p', one loc g p = (Ok tt, loc', p') /\ descended decayed g p p'.
    Lemma params_descended g ps loc : g_stiefel g = false -> g_momentum g = 0 ->
      (forall p, List.In p ps -> p_grad p <> None -> proper p) ->
      exists loc' ps', over_params one loc g ps = (Ok tt, loc', ps') /\ List.Forall2 (descended decayed g) ps ps'.
    Proof.
      move=> S M; elim: ps loc => [|p ps IH] loc H /=; first by exists loc, [::]; split.
      have [loc1 [p' [-> D]]] := O loc S M (H p (or_introl erefl)).
      have [loc2 [ps' [-> F]]] := IH loc1 (fun q Q => H q (or_intror Q)).
      by exists loc2, (p' :: ps'); split=> //; constructor.
    Qed.
    Lemma groups_descended gs loc :
      (forall g, List.In g gs -> g_stiefel g = false /\ g_momentum g = 0 /\
        forall p, List.In p (g_params g) -> p_grad p <> None -> proper p) ->
      exists gs', over_groups one loc gs = (Ok tt, gs') /\ related (descended decayed) gs gs'.
    Proof.
      elim: gs loc => [|g gs IH] loc H /=; first by exists [::]; split=> //; constructor.
      have [S [M P]] := H g (or_introl erefl).
      have [loc1 [ps' [-> F]]] := params_descended loc S M P.
      have [gs' [-> F']] := IH loc1 (fun q Q => H q (or_intror Q)).
      by exists (with_params g ps' :: gs'); split=> //; constructor.
    Qed.
  End Descend.
  Lemma sgd_one loc (g : group V) p : g_stiefel g = false -> g_momentum g = 0 -> (p_grad p <> None -> proper p) ->
      exists loc' p', sgd_param stf loc g p = (Ok tt, loc', p') /\ descended decayed g p p'.
  Proof.
    move=> S M; rewrite /sgd_param; case D: (p_grad p) => [d|] P; last first.
      by exists loc, p; split=> //; rewrite /descended D.
    have [[r c] ->] : exists rc, view (p_shape p) = Ok rc by apply: proper_view; apply: P.
    rewrite S /=. have [p' [-> X]] := plain_descended loc M D. by exists loc, p'.
  Qed.
  Lemma adam_one loc (g : group V) p : g_stiefel g = false -> g_momentum g = 0 -> (p_grad p <> None -> proper p) ->
      exists loc' p', adam_param stf loc g p = (Ok tt, loc', p') /\ descended decayed g p p'.
  Proof.
    move=> S M; rewrite /adam_param; case D: (p_grad p) => [d|] P; last first.
      by exists loc, p; split=> //; rewrite /descended D.
    have [[r c] ->] : exists rc, view (p_shape p) = Ok rc by apply: proper_view; apply: P.
    rewrite S /=. have [p' [-> X]] := plain_descended (Some (g_dampening g, g_nesterov g)) M D.
    by exists (Some (g_dampening g, g_nesterov g)), p'.
  Qed.

  (** *** Which parameters are updated on the manifold *)
  Definition updated (g : group V) (p p' : param V) : Prop :=
    (p_grad p = None -> p' = p) /\
    (p_grad p <> None -> g_stiefel g -> wide p -> p' = stf g p) /\
    (p_grad p <> None -> ~ (g_stiefel g /\ wide p) -> g_momentum g = 0 -> descended decayed g p p').
  Section Updated.
    Variable one : option (R * bool) -> group V -> param V -> result unit * option (R * bool) * param V.
    Hypothesis O : forall loc g p loc' p', one loc g p = (Ok tt, loc', p') -> updated g p p'.
    Lemma params_updated g ps loc loc' ps' : over_params one loc g ps = (Ok tt, loc', ps') -> List.Forall2 (updated g) ps ps'.
    Proof.
      elim: ps loc loc' ps' => [|p ps IH] loc loc' ps' /=; first by case=> _ <-; constructor.
      case E: (one loc g p) => [[[[]|e] l1] p1] //; case F: (over_params one l1 g ps) => [[r l2] ps2] [R0 _ <-].
      constructor; first exact: O E. apply: (IH l1 l2). by rewrite F R0.
    Qed.
    Lemma groups_updated gs loc gs' : over_groups one loc gs = (Ok tt, gs') -> related updated gs gs'.
    Proof.
      elim: gs loc gs' => [|g gs IH] loc gs' /=; first by case=> <-; constructor.
      case E: (over_params one loc g (g_params g)) => [[[[]|e] l1] ps1] //; case F: (over_groups one l1 gs) => [r gs2] [R0 <-].
      constructor; last by apply: (IH l1); rewrite F R0.
      split=> //. exact: params_updated E.
    Qed.
  End Updated.
  Lemma wideP (p : param V) r c : view (p_shape p) = Ok (r, c) -> reflect (wide p) (r <= c)%N.
  Proof.
    move=> W; apply: (iffP idP).
    - case E: (p_shape p) W => [|[|k] s] //= [Er Ec] L. exists k.+1, s. split; [exact: E | by rewrite Er Ec].
    - move=> [k [s [E L]]]. rewrite E in W. by case: k W L {E} => [|k] //= [<- <-].
  Qed.
  Lemma sgd_updated loc (g : group V) p loc' p' : sgd_param stf loc g p = (Ok tt, loc', p') -> updated g p p'.
  Proof.
    rewrite /sgd_param /updated; case D: (p_grad p) => [d|]; last by case=> _ <-.
    case W: (view _) => [[r c]|e] //. have X := wideP W.
    case: ifP => [/andP[S L]|N].
    - case=> _ <-. split=> //; split=> // _ []. split=> //. by apply/X.
    - case P: (plain loc g p d) => [[[]|e] p1] // [_ <-]. split=> //; split.
      + move=> _ S /X L. by rewrite S L in N.
      + move=> _ _ M. by have [p2 [E]] := plain_descended loc M D; rewrite P in E; case: E => ->.
  Qed.
  Lemma adam_updated loc (g : group V) p loc' p' : adam_param stf loc g p = (Ok tt, loc', p') -> updated g p p'.
  Proof.
    rewrite /adam_param /updated; case D: (p_grad p) => [d|]; last by case=> _ <-.
    case W: (view _) => [[r c]|e] //. have X := wideP W.
    case: ifP => [/andP[S L]|N].
    - case=> _ <-. split=> //; split=> // _ []. split=> //. by apply/X.
    - case P: (plain _ g p d) => [[[]|e] p1] // [_ <-]. split=> //; split.
      + move=> _ S /X L. by rewrite S L in N.
      + move=> _ _ M. by have [p2 [E]] := plain_descended (Some (g_dampening g, g_nesterov g)) M D; rewrite P in E; case: E => ->.
  Qed.
  Lemma step_updated (gs gs' : seq (group V)) :
    sgd_step stf gs = (Ok tt, gs') \/ adam_step stf gs = (Ok tt, gs') -> related updated gs gs'.
  Proof.
    by case=> H; [apply: (groups_updated sgd_updated H) | apply: (groups_updated adam_updated H)].
  Qed.
  Lemma step_wide (gs gs' : seq (group V)) :
    sgd_step stf gs = (Ok tt, gs') \/ adam_step stf gs = (Ok tt, gs') ->
    related (fun g p p' => (p_grad p = None -> p' = p) /\ (p_grad p <> None -> g_stiefel g -> wide p -> p' = stf g p)) gs gs'.
  Proof.
    move/step_updated=> H. elim: H => [|g g' l l' [E F] _ IH]; constructor=> //. split=> //.
    elim: F => [|p p' ps ps' [A [B _]] _ IHp]; constructor=> //.
  Qed.
  Lemma step_tall (gs gs' : seq (group V)) :
    sgd_step stf gs = (Ok tt, gs') \/ adam_step stf gs = (Ok tt, gs') ->
    related (fun g p p' => p_grad p <> None -> ~ wide p -> g_momentum g = 0 -> descended decayed g p p') gs gs'.
  Proof.
    move/step_updated=> H. elim: H => [|g g' l l' [E F] _ IH]; constructor=> //. split=> //.
    elim: F => [|p p' ps ps' [_ [_ C]] _ IHp]; constructor=> //. move=> D W M. apply: C => //. by case.
  Qed.

  (** *** Shapes *)
  Section Shapes.
    Variable one : option (R * bool) -> group V -> param V -> result unit * option (R * bool) * param V.
    Hypothesis O : forall loc g p loc' p', one loc g p = (Ok tt, loc', p') -> p_grad p <> None -> proper p.
    Lemma params_proper g ps loc loc' ps' : over_params one loc g ps = (Ok tt, loc', ps') ->
      forall p, List.In p ps -> p_grad p <> None -> proper p.
    Proof.
      elim: ps loc loc' ps' => [|q ps IH] loc loc' ps' //=.
      case E: (one loc g q) => [[[[]|e] l] q'] //. case F: (over_params _ _ _ _) => [[r l'] ps''] [R0 _ _].
      move=> p [<-|I]; first exact: O E. by rewrite R0 in F; apply: (IH _ _ _ F).
    Qed.
    Lemma groups_proper gs loc gs' : over_groups one loc gs = (Ok tt, gs') ->
      forall g p, List.In g gs -> List.In p (g_params g) -> p_grad p <> None -> proper p.
    Proof.
      elim: gs loc gs' => [|h gs IH] loc gs' //=.
      case E: (over_params one loc h _) => [[[[]|e] l] ps] //. case F: (over_groups _ _ _) => [r gs''] [R0 _].
      move=> g p [<-|I]; first by move=> P G; apply: (params_proper E).
      by rewrite R0 in F; apply: (IH _ _ F).
    Qed.
  End Shapes.
  Lemma sgd_proper loc (g : group V) p loc' p' : sgd_param stf loc g p = (Ok tt, loc', p') -> p_grad p <> None -> proper p.
  Proof.
    rewrite /sgd_param; case: (p_grad p) => // d. case W: (view _) => [rc|e] // _ _. exact: view_proper W.
  Qed.
  Lemma adam_proper loc (g : group V) p loc' p' : adam_param stf loc g p = (Ok tt, loc', p') -> p_grad p <> None -> proper p.
  Proof.
    rewrite /adam_param; case: (p_grad p) => // d. case W: (view _) => [rc|e] // _ _. exact: view_proper W.
  Qed.
  (** The first parameter with a gradient has no dimension. *)
  Lemma scalar_fails (gs1 gs2 : seq (group V)) g ps1 p ps2 :
    List.Forall (@idle R V) gs1 -> g_params g = ps1 ++ p :: ps2 -> (forall q, List.In q ps1 -> p_grad q = None) ->
    p_grad p <> None -> p_shape p = [::] ->
    sgd_step stf (gs1 ++ g :: gs2) = (Err EIndexError, gs1 ++ g :: gs2) /\
    adam_step stf (gs1 ++ g :: gs2) = (Err EIndexError, gs1 ++ g :: gs2).
  Proof.
    move=> I E I1 D S; split.
    - rewrite /sgd_step idle_groups //= ; last exact: sgd_idle.
      rewrite E idle_params //=; last exact: sgd_idle.
      rewrite {1}/sgd_param S /=. by case: (p_grad p) D => // d _; rewrite -E with_params_same.
    - rewrite /adam_step idle_groups //= ; last exact: adam_idle.
      rewrite E idle_params //=; last exact: adam_idle.
      rewrite {1}/adam_param S /=. by case: (p_grad p) D => // d _; rewrite -E with_params_same.
  Qed.

  (** *** Momentum with the second optimiser *)
  Fixpoint averaged (mu damp : R) (grads : seq V) : V :=
    match grads with
    | [::] => 0
    | [:: d] => d
    | d :: grads' => mu *: averaged mu damp grads' + (1 - damp) *: d
    end.
  Lemma averaged_sum (mu damp : R) (d0 : V) ds : averaged mu damp (rcons ds d0)
    = mu ^+ size ds *: d0 + (1 - damp) *: \sum_(i < size ds) mu ^+ i *: nth 0 ds i.
  Proof.
    elim: ds => [|d ds IH]; first by rewrite /= big_ord0 scaler0 addr0 scale1r.
    have -> : averaged mu damp (rcons (d :: ds) d0) = mu *: averaged mu damp (rcons ds d0) + (1 - damp) *: d by case: ds {IH}.
    rewrite IH [size (_ :: _)]/= big_ord_recl expr0 scale1r /= scalerDr scalerA -exprS -addrA; congr (_ + _).
    rewrite scalerDr addrC; congr (_ + _). rewrite scalerA mulrC -scalerA; congr (_ *: _).
    rewrite scaler_sumr; apply: eq_bigr => i _. by rewrite scalerA -exprS.
  Qed.
  Definition adam_plain (g : group V) (p : param V) (d : V) : param V :=
    (plain (Some (g_dampening g, g_nesterov g)) g p d).2.
  (** Successive steps, the gradients given most recent first. *)
  Definition run_plain (g : group V) (p : param V) (grads : seq V) : param V :=
    foldr (fun d p => adam_plain g p d) p grads.
  Lemma plain_ok (g : group V) p d : (plain (Some (g_dampening g, g_nesterov g)) g p d).1 = Ok tt.
  Proof. by rewrite /plain; case: eqP => //= _; case: (p_buffer p). Qed.
  Lemma run_buffer g v shape grads : g_momentum g != 0 -> g_decay g = 0 ->
    p_buffer (run_plain g (Param shape v None None) grads)
    = if grads is [::] then None else Some (averaged (g_momentum g) (g_dampening g) grads).
  Proof.
    move=> M W; elim: grads => [|d grads IH] //. rewrite /= /adam_plain /plain (negbTE M) W eqxx /= IH.
    by case: grads {IH} => [|d' grads].
  Qed.
  Lemma run_value g v shape grads : g_momentum g != 0 -> g_decay g = 0 -> g_nesterov g = false ->
    p_value (run_plain g (Param shape v None None) grads)
    = v - g_lr g *: \sum_(i < size grads) averaged (g_momentum g) (g_dampening g) (drop i grads).
  Proof.
    move=> M W N; elim: grads => [|d grads IH]; first by rewrite big_ord0 scaler0 subr0.
    rewrite /= big_ord_recl scalerDr opprD addrA addrAC.
    under eq_bigr do rewrite /=. rewrite -IH.
    have B := @run_buffer g v shape grads M W.
    rewrite /= /adam_plain /plain (negbTE M) W N eqxx /= B.
    by case: grads {IH B} => [|d' grads].
  Qed.

  Lemma train_plain (g : group V) p d : g_stiefel g = false -> proper p -> train stf g p d = Some (adam_plain g p d).
  Proof.
    move=> S P. have [[r c] W] := proper_view P.
    rewrite /train /adam_step /= {1}/adam_param /= W S /=.
    have E : plain (Some (g_dampening g, g_nesterov g)) (with_params g [:: Param (p_shape p) (p_value p) (Some d) (p_buffer p)])
               (Param (p_shape p) (p_value p) (Some d) (p_buffer p)) d
             = (Ok tt, adam_plain g p d).
      by rewrite (surjective_pairing (plain _ _ _ _)) -(plain_ok g p d).
    by rewrite E.
  Qed.
  Lemma plain_shape (g : group V) p d : p_shape (adam_plain g p d) = p_shape p.
  Proof. by rewrite /adam_plain /plain; case: eqP => //= _; case: (p_buffer p). Qed.
  Lemma run_shape (g : group V) p ds : p_shape (run_plain g p ds) = p_shape p.
  Proof. by elim: ds => //= d ds IH; rewrite plain_shape. Qed.
  Lemma trained_run (g : group V) p ds : g_stiefel g = false -> proper p -> trained stf g p ds = Some (run_plain g p ds).
  Proof.
    move=> S P; elim: ds => //= d ds IH; rewrite /trained /= in IH *. rewrite IH /=. apply: train_plain => //.
    by rewrite /proper run_shape.
  Qed.
  Lemma trained_average (g : group V) v r s d0 ds : (0 < r)%N -> g_stiefel g = false -> g_momentum g != 0 -> g_decay g = 0 -> g_nesterov g = false ->
    exists p, trained stf g (Param (r :: s) v None None) (rcons ds d0) = Some p /\
      p_buffer p = Some (average (g_momentum g) (g_dampening g) ds d0) /\
      p_value p = v - g_lr g *: \sum_(i < (size ds).+1) average (g_momentum g) (g_dampening g) (drop i ds) d0.
  Proof.
    move=> H S M W N. eexists; split; first by apply: trained_run => //; exists r, s.
    rewrite run_buffer // run_value // size_rcons. split.
    - by rewrite /average -averaged_sum; case: ds.
    - congr (_ - _ *: _). apply: eq_bigr => i _. rewrite /average -averaged_sum -drop_rcons //. by rewrite -ltnS.
  Qed.

  (** *** Gradients *)
  Lemma gradient_changed (g : group V) p d : g_params g = [:: p] -> p_grad p = Some d -> proper p ->
    g_stiefel g = false -> g_momentum g = 0 -> g_decay g != 0 -> p_value p != 0 ->
    exists p', sgd_step stf [:: g] = (Ok tt, [:: with_params g [:: p']]) /\ p_grad p' <> p_grad p.
  Proof.
    move=> E D P S M W N. rewrite /sgd_step /= E /=.
    have [loc' [p' [-> [_ [_]]]]] := sgd_one None S M (fun _ => P). rewrite D => [[_ H]].
    exists p'; split=> //. rewrite H => [[X]].
    have : g_decay g *: p_value p = 0 by apply: (addrI d); rewrite addr0.
    by move/eqP; rewrite scaler_eq0 (negbTE W) (negbTE N).
  Qed.
  Section Grads.
    Variable one : option (R * bool) -> group V -> param V -> result unit * option (R * bool) * param V.
    Hypothesis O : forall loc g p, g_decay g = 0 -> p_grad (one loc g p).2 = p_grad p.
    Lemma params_grads g (ps : seq (param V)) loc : g_decay g = 0 ->
      [seq @p_grad R V p | p <- (over_params one loc g ps).2] = [seq @p_grad R V p | p <- ps].
    Proof.
      move=> W; elim: ps loc => //= p ps IH loc. have := O loc p W.
      case: (one loc g p) => [[[[]|e] l] p'] /= H; last by rewrite H.
      have := IH l; case: (over_params _ _ _ _) => [[r l'] ps'] /= ->. by rewrite H.
    Qed.
    Lemma groups_grads gs loc : (forall g, List.In g gs -> g_decay g = 0) ->
      grads (over_groups one loc gs).2 = grads gs.
    Proof.
      elim: gs loc => //= g gs IH loc H. have := params_grads (g_params g) loc (H g (or_introl erefl)).
      case: (over_params _ _ _ _) => [[[[]|e] l] ps] /= E; last by rewrite /grads /= E.
      have := IH l (fun q Q => H q (or_intror Q)). case: (over_groups _ _ _) => [r gs'] /=.
      by rewrite /grads /= E => ->.
    Qed.
  End Grads.
  Lemma plain_grads loc (g : group V) (p : param V) d : g_decay g = 0 -> p_grad p = Some d -> p_grad (plain loc g p d).2 = p_grad p.
  Proof.
    move=> W ->. rewrite /plain W eqxx /=. case: eqP => //= _. by case: (p_buffer p); case: loc => [[]|].
  Qed.
  Lemma grads_kept (gs : seq (group V)) : (forall (g : group V) p, p_grad (stf g p) = p_grad p) -> (forall g, List.In g gs -> g_decay g = 0) ->
    grads (sgd_step stf gs).2 = grads gs /\ grads (adam_step stf gs).2 = grads gs.
  Proof.
    move=> S W; split; apply: groups_grads => // loc g p {W} W.
    - rewrite /sgd_param; case D: (p_grad p) => [d|] //=. case: (view _) => [[r c]|e] //=.
      case: ifP => _ /=; first by rewrite S D. have := plain_grads loc W D.
      by case: (plain _ _ _ _) => res p' /= ->; rewrite D.
    - rewrite /adam_param; case D: (p_grad p) => [d|] //=. case: (view _) => [[r c]|e] //=.
      case: ifP => _ /=; first by rewrite S D. have := plain_grads (Some (g_dampening g, g_nesterov g)) W D.
      by case: (plain _ _ _ _) => res p' /= ->; rewrite D.
  Qed.

  (** *** Reducing the learning rates *)
  Lemma reduce_spec (a b : R) (gs : seq (group V)) :
    [seq g_lr g | g <- reduce a gs] = [seq g_lr g * a | g <- gs] /\
    [seq g_params g | g <- reduce a gs] = [seq g_params g | g <- gs] /\
    [seq (g_momentum g, g_decay g, g_dampening g, g_nesterov g, g_stiefel g) | g <- reduce a gs]
      = [seq (g_momentum g, g_decay g, g_dampening g, g_nesterov g, g_stiefel g) | g <- gs] /\
    reduce b (reduce a gs) = reduce (a * b) gs.
  Proof.
    rewrite /reduce -!map_comp. do 3!split=> //. apply: eq_map => g /=. by rewrite mulrA.
  Qed.
  Definition reduced (a : R) (g : group V) : group V :=
    Group (g_lr g * a) (g_momentum g) (g_decay g) (g_dampening g) (g_nesterov g) (g_stiefel g) (g_params g).
  Lemma descended_moves a g ps ps1 ps2 :
    List.Forall2 (descended decayed g) ps ps1 -> List.Forall2 (descended decayed (reduced a g)) ps ps2 ->
    [seq xy.2 - xy.1 | xy <- zip (map (@p_value R V) ps) (map (@p_value R V) ps2)]
    = [seq a *: m | m <- [seq xy.2 - xy.1 | xy <- zip (map (@p_value R V) ps) (map (@p_value R V) ps1)]].
  Proof.
    elim: ps ps1 ps2 => [|p ps IH] ps1 ps2 F1 F2; first by case: ps1 {F1}; case: ps2 {F2}.
    case: ps1 F1 => [|p1 ps1] F1; first by inversion F1. case: ps2 F2 => [|p2 ps2] F2; first by inversion F2.
    have D1 : descended decayed g p p1 by inversion F1. have D2 : descended decayed (reduced a g) p p2 by inversion F2.
    have G1 : List.Forall2 (descended decayed g) ps ps1 by inversion F1.
    have G2 : List.Forall2 (descended decayed (reduced a g)) ps ps2 by inversion F2.
    rewrite /= (IH ps1 ps2) //; congr (_ :: _).
    case: D1 => _ [_]; case: D2 => _ [_]; case: (p_grad p) => [d|]; last by move=> -> ->; rewrite !subrr scaler0.
    move=> [-> _] [-> _] /=. have Q (x y : V) : x - y - x = - y by rewrite addrAC subrr add0r.
    by rewrite !Q scalerN scalerA [a * _]mulrC.
  Qed.
  Lemma reduce_moves (a : R) (gs : seq (group V)) :
    (forall g, List.In g gs -> g_stiefel g = false /\ g_momentum g = 0 /\
      forall p, List.In p (g_params g) -> p_grad p <> None -> proper p) ->
    forall gs1 gs2, sgd_step stf gs = (Ok tt, gs1) -> sgd_step stf (reduce a gs) = (Ok tt, gs2) ->
    moves (values gs) (values gs2) = [seq [seq a *: m | m <- ms] | ms <- moves (values gs) (values gs1)].
  Proof.
    move=> H gs1 gs2 E1 E2.
    have [gs1' [E1' F1]] := groups_descended (@sgd_one) None H. rewrite /sgd_step E1' in E1. case: E1 F1 => -> F1.
    have H2 : forall g, List.In g (reduce a gs) -> g_stiefel g = false /\ g_momentum g = 0 /\
      forall p, List.In p (g_params g) -> p_grad p <> None -> proper p.
      by move=> g /(List.in_map_iff _ _ _) [g' [<- I]]; apply: (H g').
    have [gs2' [E2' F2]] := groups_descended (@sgd_one) None H2. rewrite /sgd_step E2' in E2. case: E2 F2 => -> F2.
    move: F1 F2; rewrite /related; elim: gs gs1 gs2 {H H2 E1' E2' gs1' gs2'} => [|g gs IH] gs1 gs2 F1 F2; first by case: gs1 {F1}; case: gs2 {F2}.
    case: gs1 F1 => [|g1 gs1] F1; first by inversion F1. case: gs2 F2 => [|g2 gs2] F2; first by inversion F2.
    rewrite /moves /values /= in IH *. congr (_ :: _).
    - have [_ D1] : g1 = with_params g (g_params g1) /\ List.Forall2 (descended decayed g) (g_params g) (g_params g1) by inversion F1.
      have [_ D2] : g2 = with_params (reduced a g) (g_params g2) /\
        List.Forall2 (descended decayed (reduced a g)) (g_params g) (g_params g2) by inversion F2.
      exact: descended_moves D1 D2.
    - apply: IH; [by inversion F1 | by inversion F2].
  Qed.
End Proofs.

Lemma choose_spec type n : (0 < n)%N ->
  (choose type n = Ok (Some SGD) <-> type = "sgd"%string) /\ (choose type n = Ok (Some Adam) <-> type = "adam"%string) /\
  (type <> "sgd"%string -> type <> "adam"%string -> choose type n = Err ETypeError).
Proof.
  case: n => // n _. rewrite /choose /=.
  case: (String.eqb_spec type "sgd") => [->|A]; first by do 2!split.
  case: (String.eqb_spec type "adam") => [->|B]; first by do 2!split.
  by do 2!split.
Qed.
Lemma scalar_hypers h : initial_shape h = [::] <-> ~ List.In h [:: SigmoidA; SigmoidB; Bandwidth].
Proof.
  split; first by case: h => // _; move=> [|[|[|]]].
  by case: h => // H; exfalso; apply: H; simpl; auto.
Qed.
