(** Conversion to pieces and back, and degree elevation, of whole curves (periodic or not). *)
From Coq Require Import Reals Lra Lia ZArith List Permutation Bool.
From Verif Require Import Monad MonadFacts LoopFacts Scalar ScalarFacts Spec SpecFacts SpecGeom Polar ModelCurve CurveFacts ModelBezier
  BezierFacts BezierMath BezierThms BezierThms2 BSplineMath ModelBSpline BSplineFacts BSplineThms BSplineThms2 BSplineThms3 BSplineInsert
  BSplineInsert2 BSplineInsert3 BSplineSplit BSplineConvert CurveThms RationalThms PrimitiveFacts EdistFacts BSplineRemove BSplineRemove2
  BSplineRemove3 BSplineRemove4 BSplineRemove5 BSplineRemove6 BSplineCombine BSplineCombine2 BSplineElevate.
Import ListNotations.
Local Open Scope R_scope.

Lemma degree_of_valid {P} {V : PointOps R P} (c : bspline R P) : valid_bspline (bs_pts c) (bs_knots c) ->
  bs_degree c = Z.of_nat (bspline_degree (bs_pts c) (bs_knots c)).
Proof. intros H. apply (rep_degree _ _ _ _ _ (proj1 (valid_rep c H))). Qed.

Lemma bsrep_same {P} {V : PointOps R P} (c c' : bspline R P) n p U cp : bs_pts c' = bs_pts c -> bs_knots c' = bs_knots c ->
  bsrep c n p U cp -> bsrep c' n p U cp.
Proof. intros E1 E2 [H1 H2 H3 H4]. constructor; [now rewrite E1|now rewrite E2|assumption|assumption]. Qed.

Lemma bspline_recombine d (c : bspline R (vec R d)) :
  valid_bspline (bs_pts c) (bs_knots c) -> knots_apart (/ IZR (10 ^ 16)) (bs_knots c) ->
  nth (bspline_degree (bs_pts c) (bs_knots c)) (bs_knots c) 0
    < nth (bspline_degree (bs_pts c) (bs_knots c) + 1) (bs_knots c) 0 ->
  (forall u, In u (interior_knots (bs_pts c) (bs_knots c)) ->
     (count_occ Req_EM_T (bs_knots c) u <= bspline_degree (bs_pts c) (bs_knots c))%nat) ->
  (1 <= bspline_degree (bs_pts c) (bs_knots c))%nat ->
  exists beziers bounds c', bs_convert_to_Bezier c = Ok (beziers, bounds) /\ bs_combine_Beziers beziers bounds = Ok c' /\
    bs_periodic c' = false /\ valid_bspline (bs_pts c') (bs_knots c') /\
    bspline_degree (bs_pts c') (bs_knots c') = bspline_degree (bs_pts c) (bs_knots c) /\
    lower_of (bs_pts c') (bs_knots c') = lower_of (bs_pts c) (bs_knots c) /\
    upper_of (bs_pts c') (bs_knots c') = upper_of (bs_pts c) (bs_knots c) /\
    (forall u, In u (bs_knots c') -> In u (bs_knots c)) /\
    (forall x, lower_of (bs_pts c) (bs_knots c) <= x <= upper_of (bs_pts c) (bs_knots c) ->
      exists v v', bs_evaluate (mk_bspline (bs_pts c) (bs_knots c)) x = Ok v /\ bs_evaluate c' x = Ok v' /\
        edist v v' <= INR (length (interior_knots (bs_pts c) (bs_knots c)))
                      * (INR (bspline_degree (bs_pts c) (bs_knots c)) * / IZR (2 ^ 52))).
Proof.
  intros Hv Hap Hst Hmu Hp.
  destruct (recombine d c (fun ls => Ok (map mk_bezier ls)) _ Hv Hap Hst Hmu Hp)
    as (ls & bounds & bzs & c' & E1 & E2 & E3 & Hnp & Hv' & Hd & Hlo & Hup & _ & _ & Hin & _ & Hval).
  { intros ls Hl. exists ls. repeat split; try reflexivity. apply Hl, nth_In; assumption. }
  injection E2 as <-. exists (map mk_bezier ls), bounds, c'. repeat (split; [assumption|]).
  intros x Hx. destruct (Hval x Hx) as (v & v' & F1 & F2 & F3). exists v, v'. split; [exact F1|]. split; [|exact F3].
  rewrite <- F2. destruct c' as [a b []]; [discriminate|reflexivity].
Qed.

Lemma bspline_elevate d (c : bspline R (vec R d)) :
  valid_bspline (bs_pts c) (bs_knots c) -> knots_apart (/ IZR (10 ^ 16)) (bs_knots c) ->
  nth (bspline_degree (bs_pts c) (bs_knots c)) (bs_knots c) 0
    < nth (bspline_degree (bs_pts c) (bs_knots c) + 1) (bs_knots c) 0 ->
  (forall u, In u (interior_knots (bs_pts c) (bs_knots c)) ->
     (count_occ Req_EM_T (bs_knots c) u <= bspline_degree (bs_pts c) (bs_knots c))%nat) ->
  (1 <= bspline_degree (bs_pts c) (bs_knots c))%nat ->
  exists c', bs_elevate_degree bz_elevate_degree c = Ok c' /\
    bs_periodic c' = bs_periodic c /\ valid_bspline (bs_pts c') (bs_knots c') /\
    bspline_degree (bs_pts c') (bs_knots c') = S (bspline_degree (bs_pts c) (bs_knots c)) /\
    lower_of (bs_pts c') (bs_knots c') = lower_of (bs_pts c) (bs_knots c) /\
    upper_of (bs_pts c') (bs_knots c') = upper_of (bs_pts c) (bs_knots c) /\
    (forall u, In u (bs_knots c') -> In u (bs_knots c)) /\
    (forall x, (bs_periodic c = true \/ lower_of (bs_pts c) (bs_knots c) <= x <= upper_of (bs_pts c) (bs_knots c)) ->
      exists v v', bs_evaluate c x = Ok v /\ bs_evaluate c' x = Ok v' /\
        edist v v' <= INR (length (interior_knots (bs_pts c) (bs_knots c)))
                      * (INR (S (bspline_degree (bs_pts c) (bs_knots c))) * / IZR (2 ^ 52))).
Proof.
  intros Hv Hap Hst Hmu Hp. pose proof (degree_of_valid c Hv) as Hdeg.
  destruct (recombine d c (fun ls => mapM bz_elevate_degree (map mk_bezier ls)) _ Hv Hap Hst Hmu (le_n_S _ _ (Nat.le_0_l (bspline_degree (bs_pts c) (bs_knots c)))))
    as (ls & bounds & bzs & c0 & E1 & E2 & E3 & Hnp & Hv' & Hd & Hlo & Hup & _ & _ & Hin & _ & Hval).
  { intros ls Hl. apply elevate_all. exact Hl. }
  unfold bs_elevate_degree. rewrite Hdeg.
  destruct (Z.of_nat (bspline_degree (bs_pts c) (bs_knots c)) =? 0)%Z eqn:E0; [apply Z.eqb_eq in E0; lia|].
  rewrite E1, bind_Ok, E2, bind_Ok, E3, bind_Ok.
  set (c' := {| bs_pts := bs_pts c0; bs_knots := bs_knots c0; bs_periodic := bs_periodic c |}).
  exists c'. cbn [bs_pts bs_knots bs_periodic c']. repeat (split; [first [reflexivity | assumption]|]).
  intros x Hx.
  destruct (valid_rep c Hv) as [Hr Hk]. destruct (valid_rep c0 Hv') as [Hr' Hk'].
  assert (Hr1 := bsrep_same c0 c' _ _ _ _ eq_refl eq_refl Hr').
  destruct (bs_unwrap_total c _ _ _ _ x Hr Hk) as (u & Eu & Hu1 & Hu2).
  assert (Hu : lower_of (bs_pts c) (bs_knots c) <= u <= upper_of (bs_pts c) (bs_knots c)).
  { rewrite lower_knot, upper_knot. destruct (bs_periodic c) eqn:Epr.
    - destruct (Hu2 eq_refl) as [Hu _]. lra.
    - destruct Hx as [Hx|Hx]; [discriminate|]. rewrite (Hu1 eq_refl), <- lower_knot, <- upper_knot. exact Hx. }
  destruct (Hval u Hu) as (v & v' & F1 & F2 & F3). exists v, v'. split; [now rewrite (bs_eval_unwrap _ _ _ Eu)|]. split; [|exact F3].
  rewrite (bs_eval_unwrap c' x u); [exact F2|].
  rewrite <- Eu. unfold bs_unwrap. change (bs_periodic c') with (bs_periodic c). destruct (bs_periodic c); [|reflexivity].
  rewrite (rep_lower _ _ _ _ _ Hr), (rep_upper _ _ _ _ _ Hr), (rep_lower _ _ _ _ _ Hr1), (rep_upper _ _ _ _ _ Hr1).
  rewrite <- !lower_knot, <- !upper_knot, Hlo, Hup. reflexivity.
Qed.

Lemma elevate_degree_0 d (c : bspline R (vec R d)) elevate :
  length (bs_knots c) = S (length (bs_pts c)) -> bs_elevate_degree elevate c = Throw invalid_setting_error.
Proof.
  intros H. unfold bs_elevate_degree, bs_degree, zlen. rewrite H.
  replace (_ =? 0)%Z with true; [reflexivity|]. symmetry. apply Z.eqb_eq. lia.
Qed.

(** A periodic Bezier curve: its B-spline is not periodic and ends at the last control point. *)
Lemma bezier_to_bspline_periodic d (c : bezier (vec R d)) : bz_pts c <> [] -> bz_periodic c = true ->
  exists b, bezier_to_bspline c = Ok b /\ bs_periodic b = false /\ (forall t, 0 <= t < 1 -> bs_evaluate b t = bz_evaluate c t) /\
    bs_evaluate b 1 = Ok (last (bz_pts c) p0) /\ bz_evaluate c 1 = Ok (hd p0 (bz_pts c)).
Proof.
  intros Hne Hper. destruct (bz_pts c) as [|x l] eqn:El; [contradiction|]. rewrite <- El in *.
  set (c0 := mk_bezier (bz_pts c)).
  destruct (bezier_to_bspline_ok d c0 (length l)) as (b & E & Hb & _ & _ & _ & _ & _ & Hev);
    [unfold c0; cbn [bz_pts mk_bezier]; rewrite El; reflexivity|reflexivity|].
  destruct (bezier_endpoints d (bz_pts c) Hne) as [E0 E1].
  assert (Hu : forall t u, unwrap_parameter true 0 1 t = Ok u -> bz_evaluate c t = bz_evaluate c0 u).
  { intros t u Hu. unfold bz_evaluate, bz_unwrap. rewrite Hper. change (unwrap_parameter true bz_lower bz_upper t) with (unwrap_parameter true 0 1 t). rewrite Hu, bind_Ok. reflexivity. }
  exists b. split; [exact E|]. split; [exact Hb|]. split; [|split].
  - intros t Ht. destruct (unwrap_correct 0 1 t Rlt_0_1) as (u & k & Eu & Ek & Hk). rewrite (Hu _ _ Eu).
    assert (k = 0%Z). { assert (-1 < k < 1)%Z; [|lia]. split; apply lt_IZR; lra. }
    subst k. replace u with t by lra. apply Hev. lra.
  - rewrite Hev by lra. exact E1.
  - destruct (unwrap_correct 0 1 1 Rlt_0_1) as (u & k & Eu & Ek & Hk). rewrite (Hu _ _ Eu).
    assert (k = 1%Z). { assert (0 < k < 2)%Z; [|lia]. split; apply lt_IZR; lra. }
    subst k. replace u with 0 by lra. exact E0.
Qed.
