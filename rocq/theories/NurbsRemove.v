(** Knot removal of NURBS curves. *)
From Coq Require Import Reals Lra Lia ZArith List Bool Permutation.
From Verif Require Import Monad MonadFacts LoopFacts Scalar ScalarFacts Spec SpecFacts SpecGeom SpecRemove Polar ModelCurve CurveFacts ModelBezier
  BezierFacts BezierMath BezierThms BSplineMath ModelBSpline BSplineFacts BSplineThms BSplineThms2 BSplineThms3
  BSplineInsert BSplineInsert2 BSplineInsert3 ModelRational RationalFacts RationalThms RationalThms2 RationalThms3 ModelRemove
  BezierThms2 CurveThms BSplineSplit BSplineConvert BSplineCombine BSplineCombine2 BSplineElevate BSplineElevate2 PrimitiveFacts EdistFacts BSplineRemove5 BSplineRemove6 NurbsElevate RemoveTol.
Import ListNotations.
Local Open Scope R_scope.

Lemma set_hom_validate d (h : bspline R (vec R (S d))) (c : nurbs R d) : nb_set_homogeneous h = Ok c -> nb_validate c = Ok tt.
Proof.
  unfold nb_set_homogeneous. destruct (dehomogenize (bs_pts h)) as [pts| | |]; try discriminate. rewrite bind_Ok.
  match goal with |- context [nb_validate ?x] => destruct (nb_validate x) as [[]| | |] eqn:E; try discriminate end.
  rewrite bind_Ok. intros H. injection H as <-. exact E.
Qed.

Lemma set_hom_self d (c : nurbs R d) : nb_fresh c -> Forall (fun w => 0 < w) (nb_weights c) ->
  valid_bspline (nb_pts c) (nb_knots c) -> nb_set_homogeneous (nb_hom c) = Ok c.
Proof.
  intros Hf Hw Hv. pose proof (nb_fresh_validate c Hf (vb_len _ _ Hv)) as Hval.
  apply nb_fresh_iff in Hf. destruct Hf as [HL Eh]. unfold nb_set_homogeneous. rewrite Eh. cbn [bs_pts bs_knots bs_periodic].
  rewrite dehom_hrows; [|symmetry; exact HL|eapply Forall_impl; [|exact Hw]; simpl; intros; lra].
  rewrite bind_Ok, vlast_hrows by (symmetry; exact HL). rewrite <- Eh.
  assert (E : {| nb_pts := nb_pts c; nb_knots := nb_knots c; nb_weights := nb_weights c; nb_hom := nb_hom c; nb_periodic := nb_periodic c |} = c)
    by (destruct c; reflexivity).
  rewrite E, Hval. reflexivity.
Qed.

Lemma nurbs_undo d (c c1 : nurbs R d) t (m : nat) tol : nb_initialize c = Ok c -> Forall (fun w => 0 < w) (nb_weights c) ->
  valid_bspline (nb_pts c) (nb_knots c) ->
  lower_of (nb_pts c) (nb_knots c) < t < upper_of (nb_pts c) (nb_knots c) ->
  (1 <= m)%nat -> (m + count_occ Req_EM_T (nb_knots c) t <= bspline_degree (nb_pts c) (nb_knots c))%nat ->
  nb_insert_knot c t (Z.of_nat m) = Ok c1 -> nb_remove_knot_any c1 t (Z.of_nat m) tol = Ok (c, Z.of_nat m).
Proof.
  intros Hf Hw Hv Ht Hm Hmu E. pose proof (nfresh_len c Hf) as L. pose proof (nfresh_knots c Hf) as K.
  destruct (valid_len (bs_pts (nb_hom c)) (nb_pts c) (nb_knots c) L) as (V1 & V2 & V3 & V4 & V5).
  unfold nb_insert_knot in E. rewrite (nb_fresh_validate c Hf (vb_len _ _ Hv)), bind_Ok in E.
  destruct (bs_insert_knot (nb_hom c) t (Z.of_nat m)) as [h1| | |] eqn:E1; try discriminate. rewrite bind_Ok in E.
  pose proof (set_hom_validate _ _ _ E) as Hval. destruct (nset_hom_fresh h1 c1 E) as (_ & H1 & _).
  destruct (remove_any_undo (S d) (nb_hom c) h1 t m m tol) as (h & k & E2 & Hk & Eh);
    rewrite ?K, ?V3, ?V4, ?V5; try tauto; try lia.
  unfold nb_remove_knot_any. rewrite Hval, bind_Ok, H1, E2, bind_Ok. rewrite (Eh eq_refl).
  rewrite (set_hom_self d c Hf Hw Hv), bind_Ok. replace k with m by lia. reflexivity.
Qed.

Lemma nurbs_remove d (c c' : nurbs R d) t (N : nat) tol eff r : nb_initialize c = Ok c ->
  valid_bspline (nb_pts c) (nb_knots c) -> knots_apart (/ IZR (10 ^ 16)) (nb_knots c) ->
  nth (bspline_degree (nb_pts c) (nb_knots c)) (nb_knots c) 0
    < nth (bspline_degree (nb_pts c) (nb_knots c) + 1) (nb_knots c) 0 ->
  lower_of (nb_pts c) (nb_knots c) < t < upper_of (nb_pts c) (nb_knots c) ->
  (1 <= N <= count_occ Req_EM_T (nb_knots c) t)%nat ->
  (count_occ Req_EM_T (nb_knots c) t <= bspline_degree (nb_pts c) (nb_knots c))%nat ->
  (0 <= tol /\ eff = tol \/ tol < 0 /\ exists s, longest_side (bs_pts (nb_hom c)) s /\ eff = s / IZR (10 ^ 6)) ->
  nb_remove_knot_any c t (Z.of_nat N) tol = Ok (c', r) ->
  exists count, r = Z.of_nat count /\ (count <= N)%nat /\
  nb_initialize c' = Ok c' /\ nb_periodic c' = nb_periodic c /\ valid_bspline (nb_pts c') (nb_knots c') /\
  bspline_degree (nb_pts c') (nb_knots c') = bspline_degree (nb_pts c) (nb_knots c) /\
  Permutation (nb_knots c) (repeat t count ++ nb_knots c') /\
  lower_of (nb_pts c') (nb_knots c') = lower_of (nb_pts c) (nb_knots c) /\
  upper_of (nb_pts c') (nb_knots c') = upper_of (nb_pts c) (nb_knots c) /\
  forall wmin x, let e := INR count * eff in
    e < wmin -> Forall (fun w => wmin <= w) (nb_weights c) ->
    (nb_periodic c = true \/ lower_of (nb_pts c) (nb_knots c) <= x <= upper_of (nb_pts c) (nb_knots c)) ->
    exists a a', nb_evaluate c x = Ok a /\ nb_evaluate c' x = Ok a' /\ edist a a' <= e * (1 + edist a p0) / (wmin - e).
Proof.
  intros Hf Hv Ha Hst Ht HN Hmu Heff He.
  pose proof (nfresh_len c Hf) as L. pose proof (nfresh_knots c Hf) as K. pose proof (nfresh_per c Hf) as P.
  destruct (valid_len (bs_pts (nb_hom c)) (nb_pts c) (nb_knots c) L) as (V1 & V2 & V3 & V4 & V5).
  assert (Hvh : valid_bspline (bs_pts (nb_hom c)) (bs_knots (nb_hom c))) by (rewrite K; now apply V1).
  destruct (pick_tol (S d) (bs_pts (nb_hom c)) tol (valid_ne _ _ Hvh) ltac:(lia)) as (tol' & H0 & H1 & H2 & H3).
  assert (Etol : tol' = eff).
  { destruct Heff as [[G ->]|[G (s & Hs & ->)]]; [now apply H2|]. destruct (H3 G) as (s' & Hs' & ->). f_equal.
    destruct Hs as [A1 (i & a & b & Hi & Hia & Hib & <-)]. destruct Hs' as [B1 (i' & a' & b' & Hi' & Hia' & Hib' & <-)].
    apply Rle_antisym; [now apply A1|now apply B1]. }
  subst tol'.
  destruct (bspline_remove (S d) (nb_hom c) t N eff) as (h & k & E & Q1 & Q2 & Q3 & Q4 & Q5 & Q6 & Q7 & _ & _ & _ & Q8 & _);
    rewrite ?K, ?V3, ?V4, ?V5; try tauto.
  { left. rewrite V5. exact Hst. }
  rewrite K, ?V3, ?V4, ?V5, P in *.
  unfold nb_remove_knot_any in He. rewrite (nb_fresh_validate c Hf (vb_len _ _ Hv)), bind_Ok in He.
  rewrite (remove_any_ok _ _ _ _ _ _ _ E H1 H2), bind_Ok in He.
  destruct (nb_set_homogeneous h) as [c1| | |] eqn:E1; try discriminate. rewrite bind_Ok in He. injection He as -> <-.
  destruct (nset_hom_fresh h c' E1) as (F' & H' & K' & P' & N' & W').
  destruct (valid_len (nb_pts c') (bs_pts h) (bs_knots h) N') as (U1 & U2 & U3 & U4 & U5).
  exists k. split; [reflexivity|]. split; [exact Q1|].
  rewrite K', U3, U4, U5. split; [exact F'|]. split; [congruence|]. split; [now apply U1|]. split; [exact Q4|].
  split; [exact Q5|]. split; [exact Q6|]. split; [exact Q7|]. intros wmin x e Hew HW Hx.
  rewrite (nb_fresh_eval c x Hf (vb_len _ _ Hv)).
  assert (Hvl : (length (nb_pts c') + 1 <= length (nb_knots c'))%nat) by (rewrite K', N'; exact (vb_len _ _ Q3)).
  rewrite (nb_fresh_eval c' x F' Hvl), H'.
  destruct (Q8 x Hx) as (v & v' & Ev & Ev' & Hd). fold e in Hd. rewrite Ev, Ev', !bind_Ok.
  apply quotient_close; [|clear Hd|exact Hd].
  - split; [|exact Hew]. eapply Rle_trans; [apply edist_pos|exact Hd].
  - (* the weight of the curve *)
    rewrite <- K in Hvh. destruct (valid_rep _ Hvh) as [Hr Hk]. rewrite K in Hvh.
    destruct (bs_unwrap_total _ _ _ _ _ x Hr Hk) as (u & Eu & Hu1 & Hu2).
    assert (Hu : lower_of (nb_pts c) (nb_knots c) <= u <= upper_of (nb_pts c) (nb_knots c)).
    { rewrite <- V3, <- V4, <- K, lower_knot, upper_knot. rewrite P in Hu1, Hu2. destruct (nb_periodic c).
      - destruct (Hu2 eq_refl) as [Hu _]. lra.
      - destruct Hx as [Hx|Hx]; [discriminate|]. rewrite (Hu1 eq_refl), <- lower_knot, <- upper_knot, K, V3, V4. exact Hx. }
    rewrite (bs_eval_unwrap _ _ _ Eu) in Ev.
    destruct (bspline_convex (S d) (nonperiodic (nb_hom c)) u) as (a & q & _ & _ & Eq & Hc);
      cbn [bs_pts bs_knots nonperiodic mk_bspline bs_periodic]; rewrite ?K; try tauto.
    { now rewrite V3, V4. }
    { left. left. rewrite V5. exact Hst. }
    rewrite Eq in Ev. injection Ev as <-. apply (comb_last _ _ _ _ Hc).
    apply Forall_firstn', Forall_skipn'. cbn [bs_pts nonperiodic mk_bspline].
    apply nb_fresh_iff in Hf. destruct Hf as [HL Eh]. rewrite Eh. cbn [bs_pts].
    rewrite <- (Forall_map (vlast d) (fun w => wmin <= w)). now rewrite vlast_hrows by (symmetry; exact HL).
Qed.
