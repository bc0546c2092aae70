(** Degree elevation of NURBS curves. *)
From Coq Require Import Reals Lra Lia ZArith List Permutation Bool.
From Verif Require Import Monad MonadFacts LoopFacts Scalar ScalarFacts Spec SpecFacts SpecGeom Polar ModelCurve CurveFacts ModelBezier
  BezierFacts BezierMath BezierThms BezierThms2 BSplineMath ModelBSpline BSplineFacts BSplineThms BSplineThms2 BSplineThms3 BSplineInsert
  BSplineInsert2 BSplineInsert3 BSplineSplit BSplineConvert CurveThms ModelRational RationalFacts RationalThms RationalThms2 RationalThms3 PrimitiveFacts EdistFacts
  BSplineCombine BSplineCombine2 BSplineElevate BSplineElevate2.
Import ListNotations.
Local Open Scope R_scope.

(** The length of a point. *)
Lemma edist_p0 {d} (a : vec R d) : edist a p0 = sqrt (inner a a).
Proof. rewrite edist_sqrt. f_equal. f_equal; apply vec_ext; intros i Hi; rewrite coord_sub, coord_0 by exact Hi; simpl; ring. Qed.

Lemma edist_last d (a b : vec R (S d)) : Rabs (vlast d a - vlast d b) <= edist a b.
Proof.
  unfold edist. rewrite <- sqrt_Rsqr_abs. apply sqrt_le_1_alt. rewrite !vlast_coord, Rsqr_pow2.
  rewrite rsum_S. pose proof (rsum_nonneg d (fun i => (coord (S d) i a - coord (S d) i b) ^ 2) ltac:(intros; apply pow2_ge_0)). lra.
Qed.
Lemma edist_head d (a b : vec R (S d)) : edist (vhead d a) (vhead d b) <= edist a b.
Proof.
  unfold edist. apply sqrt_le_1_alt. rewrite rsum_S.
  rewrite (rsum_ext d (fun i => (coord d i (vhead d a) - coord d i (vhead d b)) ^ 2) (fun i => (coord (S d) i a - coord (S d) i b) ^ 2)).
  - match goal with |- _ <= _ + ?z ^ 2 => pose proof (pow2_ge_0 z) end. lra.
  - intros i Hi. now rewrite !coord_vhead by exact Hi.
Qed.

(** Two homogeneous points that are close give close points, when the last coordinates keep away from zero. *)
Lemma quotient_close d (q q' : vec R (S d)) (e wmin : R) : 0 <= e < wmin -> wmin <= vlast d q -> edist q q' <= e ->
  exists a a', h_point q = Ok a /\ h_point q' = Ok a' /\ edist a a' <= e * (1 + edist a p0) / (wmin - e).
Proof.
  intros He Hw Hd. pose proof (edist_last d q q') as Hl. pose proof (edist_head d q q') as Hh.
  assert (Hw' : wmin - e <= vlast d q'). { revert Hl. unfold Rabs. destruct (Rcase_abs _); lra. }
  rewrite (h_point_ok d q) by lra. rewrite (h_point_ok d q') by lra. do 2 eexists. split; [reflexivity|]. split; [reflexivity|].
  set (w := vlast d q) in *. set (w' := vlast d q') in *. set (a := pmul (/ w) (vhead d q)).
  assert (Ea : a = pmul (/ w') (padd (vhead d q) (pmul (w' - w) a))).
  { unfold a. apply vec_ext. intros i Hi. rewrite !coord_mul, coord_add, !coord_mul by exact Hi. simpl. field. lra. }
  assert (E1 : edist a (pmul (/ w') (vhead d q')) = / w' * edist (padd (vhead d q) (pmul (w' - w) a)) (vhead d q')).
  { rewrite Ea at 1. apply edist_scale. left. apply Rinv_0_lt_compat. lra. }
  rewrite E1.
  assert (E2 : edist (padd (vhead d q) (pmul (w' - w) a)) (vhead d q') <= e * (1 + edist a p0)).
  { replace (vhead d q') with (padd (vhead d q') (p0 : vec R d)) by (apply vec_ext; intros i Hi; rewrite coord_add, coord_0 by exact Hi; simpl; ring).
    eapply Rle_trans; [apply edist_add|].
    assert (edist (pmul (w' - w) a) p0 = Rabs (w' - w) * edist a p0).
    { rewrite !edist_p0. rewrite inner_mul_l, inner_mul_r, <- Rmult_assoc, sqrt_mult by (first [apply inner_nonneg | apply Rle_0_sqr]).
      f_equal. apply sqrt_Rsqr_abs. }
    rewrite H. rewrite Rabs_minus_sym. pose proof (edist_pos _ a p0). nra. }
  unfold Rdiv. rewrite Rmult_comm. apply Rmult_le_compat.
  - apply edist_pos.
  - left. apply Rinv_0_lt_compat. lra.
  - exact E2.
  - apply Rinv_le_contravar; lra.
Qed.

Lemma Forall_firstn' {A} (Q : A -> Prop) n l : Forall Q l -> Forall Q (firstn n l).
Proof. intros H. revert n. induction H; intros [|n]; simpl; constructor; auto. Qed.
Lemma Forall_skipn' {A} (Q : A -> Prop) n l : Forall Q l -> Forall Q (skipn n l).
Proof. intros H. revert n. induction H; intros [|n]; simpl; auto. Qed.
Lemma comb_last d (l : list (vec R (S d))) q wmin : convex_comb l q -> Forall (fun h => wmin <= vlast d h) l -> wmin <= vlast d q.
Proof.
  intros (f & Hf & Hs & ->) HF. rewrite (linmap_psum _ _ _ (vlast_lin d)).
  assert (Hr : forall n, (n <= length l)%nat -> wmin * rsum n f <= psum n (fun i => vlast d (pmul (f i) (nth i l p0)))).
  { induction n as [|n IH]; intros Hn.
    - cbn. lra.
    - rewrite rsum_S. cbn [psum]. specialize (IH ltac:(lia)). rewrite (lm_mul _ (vlast_lin d)).
      rewrite Forall_forall in HF. assert (Hw := HF _ (nth_In l p0 (Hn : (n < length l)%nat))). specialize (Hf n Hn).
      change (@padd R R scal_point_ops) with Rplus. cbn [pmul scal_point_ops smul R_ops]. simpl in *. nra. }
  specialize (Hr (length l) (Nat.le_refl _)). rewrite Hs in Hr. lra.
Qed.

Lemma nurbs_elevate d (c c' : nurbs R d) : nb_initialize c = Ok c ->
  valid_bspline (nb_pts c) (nb_knots c) -> knots_apart (/ IZR (10 ^ 16)) (nb_knots c) ->
  nth (bspline_degree (nb_pts c) (nb_knots c)) (nb_knots c) 0
    < nth (bspline_degree (nb_pts c) (nb_knots c) + 1) (nb_knots c) 0 ->
  (forall u, In u (interior_knots (nb_pts c) (nb_knots c)) ->
     (count_occ Req_EM_T (nb_knots c) u <= bspline_degree (nb_pts c) (nb_knots c))%nat) ->
  (1 <= bspline_degree (nb_pts c) (nb_knots c))%nat ->
  nb_elevate_degree c = Ok c' ->
  nb_initialize c' = Ok c' /\ nb_periodic c' = nb_periodic c /\ valid_bspline (nb_pts c') (nb_knots c') /\
  bspline_degree (nb_pts c') (nb_knots c') = S (bspline_degree (nb_pts c) (nb_knots c)) /\
  lower_of (nb_pts c') (nb_knots c') = lower_of (nb_pts c) (nb_knots c) /\
  upper_of (nb_pts c') (nb_knots c') = upper_of (nb_pts c) (nb_knots c) /\
  forall wmin x, let e := INR (length (interior_knots (nb_pts c) (nb_knots c)))
                          * (INR (S (bspline_degree (nb_pts c) (nb_knots c))) * / IZR (2 ^ 52)) in
    e < wmin -> Forall (fun w => wmin <= w) (nb_weights c) ->
    (nb_periodic c = true \/ lower_of (nb_pts c) (nb_knots c) <= x <= upper_of (nb_pts c) (nb_knots c)) ->
    exists a a', nb_evaluate c x = Ok a /\ nb_evaluate c' x = Ok a' /\ edist a a' <= e * (1 + edist a p0) / (wmin - e).
Proof.
  intros Hf Hv Ha Hst Hmu Hp He.
  pose proof (nfresh_len c Hf) as L. pose proof (nfresh_knots c Hf) as K. pose proof (nfresh_per c Hf) as P.
  destruct (valid_len (bs_pts (nb_hom c)) (nb_pts c) (nb_knots c) L) as (V1 & V2 & V3 & V4 & V5).
  assert (VI : interior_knots (bs_pts (nb_hom c)) (nb_knots c) = interior_knots (nb_pts c) (nb_knots c)) by (unfold interior_knots; now rewrite V3, V4).
  destruct (bspline_elevate (S d) (nb_hom c)) as (h & E & Q1 & Q2 & Q3 & Q4 & Q5 & Q6 & Q7); rewrite ?K, ?VI, ?V5; try tauto.
  rewrite K, VI, ?V3, ?V4, ?V5, P in *.
  unfold nb_elevate_degree in He. rewrite (nb_fresh_validate c Hf (vb_len _ _ Hv)), bind_Ok, E, bind_Ok in He.
  destruct (nb_set_homogeneous h) as [c1| | |] eqn:E1; try discriminate. rewrite bind_Ok in He.
  destruct (assert_ (eqb (nb_periodic c1) (nb_periodic c))) as [[]| | |]; try discriminate. rewrite bind_Ok in He. injection He as ->.
  destruct (nset_hom_fresh h c' E1) as (F' & H' & K' & P' & N' & W').
  destruct (valid_len (nb_pts c') (bs_pts h) (bs_knots h) N') as (U1 & U2 & U3 & U4 & U5).
  rewrite K', U3, U4, U5. split; [exact F'|]. split; [congruence|]. split; [now apply U1|]. split; [exact Q3|].
  split; [exact Q4|]. split; [exact Q5|]. intros wmin x e Hew HW Hx.
  rewrite (nb_fresh_eval c x Hf (vb_len _ _ Hv)).
  assert (Hvl : (length (nb_pts c') + 1 <= length (nb_knots c'))%nat) by (rewrite K', N'; exact (vb_len _ _ Q2)).
  rewrite (nb_fresh_eval c' x F' Hvl), H'.
  destruct (Q7 x Hx) as (v & v' & Ev & Ev' & Hd). fold e in Hd. rewrite Ev, Ev', !bind_Ok.
  apply quotient_close; [|clear Hd|exact Hd].
  - split; [|exact Hew]. eapply Rle_trans; [apply edist_pos|exact Hd].
  - (* the weight of the curve *)
    assert (Hv1 : valid_bspline (bs_pts (nb_hom c)) (bs_knots (nb_hom c))) by (rewrite K; now apply V1).
    destruct (valid_rep _ Hv1) as [Hr Hk].
    destruct (bs_unwrap_total _ _ _ _ _ x Hr Hk) as (u & Eu & Hu1 & Hu2).
    assert (Hu : lower_of (nb_pts c) (nb_knots c) <= u <= upper_of (nb_pts c) (nb_knots c)).
    { rewrite <- V3, <- V4, <- K, lower_knot, upper_knot. rewrite P in Hu1, Hu2. destruct (nb_periodic c).
      - destruct (Hu2 eq_refl) as [Hu _]. lra.
      - destruct Hx as [Hx|Hx]; [discriminate|]. rewrite (Hu1 eq_refl), <- lower_knot, <- upper_knot, K, V3, V4. exact Hx. }
    rewrite (bs_eval_unwrap _ _ _ Eu) in Ev.
    destruct (bspline_convex (S d) (nonperiodic (nb_hom c)) u) as (a & q & _ & _ & Eq & Hc);
      cbn [bs_pts bs_knots nonperiodic mk_bspline bs_periodic]; rewrite ?K; try tauto.
    { now rewrite V3, V4. }
    { left. left. rewrite V5. exact Hst. }
    rewrite Eq in Ev. injection Ev as <-. apply (comb_last _ _ _ _ Hc).
    apply Forall_firstn', Forall_skipn'. cbn [bs_pts nonperiodic mk_bspline].
    apply nb_fresh_iff in Hf. destruct Hf as [HL Eh]. rewrite Eh. cbn [bs_pts].
    rewrite <- (Forall_map (vlast d) (fun w => wmin <= w)). now rewrite vlast_hrows by (symmetry; exact HL).
Qed.
