(** Counterexamples for rational curves: stale homogeneous data, lost periodic flag. *)
From Coq Require Import Reals Lra Lia ZArith List Bool.
From Verif Require Import Monad MonadFacts Scalar ScalarFacts Spec ModelCurve CurveFacts ModelBezier BezierThms ModelBSpline BSplineThms3
  ExampleFacts ModelRational RationalFacts RationalThms RationalThms2 RationalThms3.
Import ListNotations.
Local Open Scope R_scope.

Definition v1 (x : R) : vec R 1 := (x, tt).
Lemma v1_neq x y : x <> y -> Ok (v1 x) <> Ok (v1 y).
Proof. intros H E. injection E as E. contradiction. Qed.

(** A straight line from 0 to 1 with equal weights. *)
Definition line_rb : rbezier R 1 := rb_set_weights (rb_set_control_points rb_empty [v1 0; v1 1]) [1; 1].
Definition line_rb5 : rbezier R 1 := rb_set_weights (rb_set_control_points rb_empty [v1 0; v1 5]) [1; 1].

Lemma line_eval (pts : list (vec R 1)) (c : rbezier R 1) : pts <> [] -> rb_pts c = pts -> rb_weights c = repeat 1 (length pts) ->
  rb_periodic c = false -> exists c', rb_initialize c = Ok c' /\ rb_evaluate c' 1 = Ok (last pts p0).
Proof.
  intros Hne H1 H2 H3. assert (HL : length (rb_weights c) = length (rb_pts c)) by (rewrite H1, H2; apply repeat_length).
  eexists. split; [apply rb_init_ok; exact HL|].
  match goal with |- rb_evaluate ?x 1 = _ => set (c' := x) end.
  assert (Hf : rb_fresh c') by (apply rb_fresh_iff; split; [exact HL|reflexivity]).
  rewrite (rb_equal_weights c' 1 1); [|lra|subst c'; cbn; rewrite H1; exact Hne|exact Hf|subst c'; cbn; rewrite H1; exact H2].
  subst c'. cbn [rb_pts rb_periodic]. rewrite H1, H3. apply bezier_endpoints. exact Hne.
Qed.

Lemma bulk_points_stale : exists (c0 c c1 : rbezier R 1) (pts : list (vec R 1)) (a b : vec R 1),
  rb_initialize c0 = Ok c /\ length pts = length (rb_pts c) /\
  rb_evaluate (rb_set_control_points c pts) 1 = Ok a /\
  rb_initialize (rb_set_control_points c pts) = Ok c1 /\ rb_evaluate c1 1 = Ok b /\ a <> b.
Proof.
  destruct (line_eval [v1 0; v1 1] line_rb) as (c & E & Hv); [discriminate|reflexivity..|].
  destruct (line_eval [v1 0; v1 5] (rb_set_control_points c [v1 0; v1 5])) as (c1 & E1 & Hv1); [discriminate|reflexivity| | |].
  { apply rb_init_inv in E. destruct E as [_ ->]. reflexivity. }
  { apply rb_init_inv in E. destruct E as [_ ->]. reflexivity. }
  exists line_rb, c, c1, [v1 0; v1 5], (v1 1), (v1 5).
  assert (Hf := rb_init_fresh _ _ E). pose proof (rb_init_inv _ _ E) as [_ Ec].
  assert (Hp : rb_pts c = [v1 0; v1 1]) by (rewrite Ec; reflexivity). assert (Hw : rb_weights c = [1; 1]) by (rewrite Ec; reflexivity).
  split; [exact E|]. split; [rewrite Hp; reflexivity|]. split; [|split; [exact E1|split; [exact Hv1|]]].
  - transitivity (rb_evaluate c 1); [|exact Hv].
    exact (bulk_setters_no_effect 1 c [v1 0; v1 5] (rb_weights c) 1 Hf ltac:(rewrite Hp; reflexivity) ltac:(rewrite Hp, Hw; reflexivity)).
  - intros H. injection H as H. lra.
Qed.

Lemma basis2 : bezier_basis 2 (1/2) 0 = 1/2 /\ bezier_basis 2 (1/2) 1 = 1/2.
Proof. unfold bezier_basis, bernstein, C. split; simpl; field. Qed.
Lemma wsum2 w1 w2 : weight_sum 2 (bezier_basis 2 (1/2)) [w1; w2] = (w1 + w2) / 2.
Proof. destruct basis2 as [E0 E1]. unfold weight_sum, rsum. cbn [psum nth]. rewrite E0, E1. simpl. field. Qed.
Lemma wmean2 w1 w2 a b : w1 + w2 <> 0 ->
  weighted_mean 2 (bezier_basis 2 (1/2)) [w1; w2] [v1 a; v1 b] = v1 ((w1 * a + w2 * b) / (w1 + w2)).
Proof.
  intros H. destruct basis2 as [E0 E1]. unfold weighted_mean. rewrite wsum2. cbn [psum nth]. rewrite E0, E1. unfold v1. cbn. f_equal. field. exact H.
Qed.

Lemma bulk_weights_stale : exists (c0 c c1 : rbezier R 1) (ws : list R) (t : R) (a b : vec R 1),
  rb_initialize c0 = Ok c /\ length ws = length (rb_pts c) /\
  rb_evaluate (rb_set_weights c ws) t = Ok a /\
  rb_initialize (rb_set_weights c ws) = Ok c1 /\ rb_evaluate c1 t = Ok b /\ a <> b.
Proof.
  set (c0 := line_rb).
  destruct (rational_bezier_eval 1 c0 (1/2)) as (c & E & Hv & _); [discriminate|reflexivity|reflexivity|].
  set (c0' := rb_set_weights c [1; 3]).
  pose proof (rb_init_inv _ _ E) as [_ Ec]. assert (Hf := rb_init_fresh _ _ E).
  assert (Hp : rb_pts c = [v1 0; v1 1]) by (rewrite Ec; reflexivity). assert (Hw : rb_weights c = [1; 1]) by (rewrite Ec; reflexivity).
  destruct (rational_bezier_eval 1 c0' (1/2)) as (c1 & E1 & Hv1 & _).
  { unfold c0'. cbn. rewrite Hp. discriminate. } { unfold c0'. cbn. rewrite Hp. reflexivity. } { unfold c0'. cbn. rewrite Ec. reflexivity. }
  exists c0, c, c1, [1; 3], (1/2), (v1 (1/2)), (v1 (3/4)).
  split; [exact E|]. split; [rewrite Hp; reflexivity|]. split; [|split; [exact E1|split]].
  - transitivity (rb_evaluate c (1/2)).
    + exact (bulk_setters_no_effect 1 c (rb_pts c) [1; 3] (1/2) Hf eq_refl ltac:(rewrite Hp; reflexivity)).
    + change (length (rb_pts c0)) with 2%nat in Hv. change (rb_weights c0) with [1; 1] in Hv. change (rb_pts c0) with [v1 0; v1 1] in Hv.
      rewrite wsum2, wmean2 in Hv by lra. rewrite Hv by lra. unfold v1. do 2 f_equal. field.
  - unfold c0' in Hv1. cbn [rb_set_weights rb_pts rb_weights] in Hv1. rewrite Hp in Hv1. cbn [length] in Hv1.
    rewrite wsum2, wmean2 in Hv1 by lra. rewrite Hv1 by lra. unfold v1. do 2 f_equal. field.
  - intros H. injection H as H. lra.
Qed.

(** * The periodic flag is lost in conversions *)
Definition per_line : bezier (vec R 1) := {| bz_pts := [v1 0; v1 1]; bz_periodic := true |}.
Lemma per_line_1 : bz_evaluate per_line 1 = Ok (v1 0).
Proof.
  destruct (bezier_periodic_shift 1 [v1 0; v1 1] 0 1) as (E & _). rewrite Rplus_0_l in E.
  change (per_bezier [v1 0; v1 1]) with per_line in E. transitivity (bz_evaluate per_line 0); [exact E|].
  unfold bz_evaluate. change (bz_unwrap per_line 0) with (unwrap_parameter true 0 1 0). rewrite unwrap_in by lra. cbn [bind].
  exact (proj1 (bezier_endpoints 1 [v1 0; v1 1] ltac:(discriminate))).
Qed.

Lemma bezier_to_rational_loses : exists (c : bezier (vec R 1)) c', bz_periodic c = true /\ bezier_to_rbezier c = Ok c' /\
  rb_periodic c' = false /\ rb_evaluate c' 1 <> bz_evaluate c 1.
Proof.
  destruct (bezier_to_rational per_line) as (c' & E & _ & _ & Hp & Hv); [discriminate|].
  exists per_line, c'. split; [reflexivity|]. split; [exact E|]. split; [exact Hp|]. rewrite Hv, per_line_1.
  rewrite (proj2 (bezier_endpoints 1 (bz_pts per_line) ltac:(discriminate))). apply v1_neq. lra.
Qed.

Lemma rational_to_bezier_loses : exists (c0 c : rbezier R 1) c', rb_initialize c0 = Ok c /\ rb_periodic c = true /\
  rbezier_to_bezier c = Ok c' /\ bz_periodic c' = false /\ bz_evaluate c' 1 <> rb_evaluate c 1.
Proof.
  set (c0 := rb_set_periodic line_rb true).
  assert (E := rb_init_ok c0 eq_refl). match type of E with _ = Ok ?x => set (c := x) in E end.
  assert (Hf := rb_init_fresh _ _ E).
  exists c0, c, (mk_bezier [v1 0; v1 1]). split; [exact E|]. split; [reflexivity|].
  assert (Hd : weights_differ (rb_weights c) = false) by exact (weights_differ_repeat 1 2).
  split; [unfold rbezier_to_bezier; rewrite Hd; reflexivity|]. split; [reflexivity|].
  rewrite (rb_equal_weights c 1 1); [|lra|discriminate|exact Hf|reflexivity].
  change {| bz_pts := rb_pts c; bz_periodic := rb_periodic c |} with per_line.
  rewrite per_line_1, (proj2 (bezier_endpoints 1 [v1 0; v1 1] ltac:(discriminate))). apply v1_neq. cbn. lra.
Qed.

Definition line_knots : list R := map IZR [0; 0; 1; 1]%Z.
Definition per_bs : bspline R (vec R 1) := {| bs_pts := [v1 0; v1 1]; bs_knots := line_knots; bs_periodic := true |}.
Lemma per_bs_valid : valid_bspline (bs_pts per_bs) (bs_knots per_bs).
Proof. apply valid_of_Z. reflexivity. Qed.
Lemma bs_line_0 : bs_evaluate (mk_bspline [v1 0; v1 1] line_knots) 0 = Ok (v1 0).
Proof.
  apply (bspline_clamped_start 1 (mk_bspline [v1 0; v1 1] line_knots)); [exact per_bs_valid|reflexivity|].
  intros i Hi. assert (i = 1%nat) by (cbn in Hi; lia). subst i. reflexivity.
Qed.
Lemma bs_line_1 : bs_evaluate (mk_bspline [v1 0; v1 1] line_knots) 1 = Ok (v1 1).
Proof.
  apply (bspline_clamped_end 1 (mk_bspline [v1 0; v1 1] line_knots)); [exact per_bs_valid|apply apart_of_Z|reflexivity| |].
  - cbn. lra.
  - intros i Hi. assert (i = 2%nat) by (cbn in Hi; lia). subst i. reflexivity.
Qed.
Lemma per_bs_1 : bs_evaluate per_bs 1 = Ok (v1 0).
Proof.
  destruct (bspline_periodic_value 1 per_bs 1 per_bs_valid eq_refl) as (u & k & Hu & Hr & E & _).
  rewrite E. assert (u = 0).
  { change (lower_of (bs_pts per_bs) (bs_knots per_bs)) with 0 in *. change (upper_of (bs_pts per_bs) (bs_knots per_bs)) with 1 in *.
    assert (k = 1)%Z; [|subst; lra]. assert (0 < IZR k < 2) as [A B] by lra. apply lt_IZR in A. apply lt_IZR in B. lia. }
  subst u. rewrite H. exact bs_line_0.
Qed.

Lemma bspline_to_rational_loses : exists (c : bspline R (vec R 1)) c', valid_bspline (bs_pts c) (bs_knots c) /\
  bs_periodic c = true /\ bspline_to_nurbs c = Ok c' /\ nb_periodic c' = false /\ nb_evaluate c' 1 <> bs_evaluate c 1.
Proof.
  destruct (bspline_to_rational per_bs per_bs_valid) as (c' & E & _ & _ & _ & Hp & Hv).
  exists per_bs, c'. split; [exact per_bs_valid|]. split; [reflexivity|]. split; [exact E|]. split; [exact Hp|].
  rewrite Hv, per_bs_1. change (bs_pts per_bs) with [v1 0; v1 1]. change (bs_knots per_bs) with line_knots. rewrite bs_line_1. apply v1_neq. lra.
Qed.

Lemma rational_to_bspline_loses : exists (c0 c : nurbs R 1) c', nb_initialize c0 = Ok c /\ valid_bspline (nb_pts c) (nb_knots c) /\
  nb_periodic c = true /\ nurbs_to_bspline c = Ok c' /\ bs_periodic c' = false /\ bs_evaluate c' 1 <> nb_evaluate c 1.
Proof.
  set (c0 := nb_set_periodic (nb_set_weights (nb_set_knots (nb_set_control_points nb_empty [v1 0; v1 1]) line_knots) [1; 1]) true).
  assert (E := nb_init_ok c0 eq_refl). match type of E with _ = Ok ?x => set (c := x) in E end.
  assert (Hf := nb_init_fresh _ _ E).
  exists c0, c, (mk_bspline [v1 0; v1 1] line_knots). split; [exact E|]. split; [exact per_bs_valid|]. split; [reflexivity|].
  assert (Hd : weights_differ (nb_weights c) = false) by exact (weights_differ_repeat 1 2).
  split; [unfold nurbs_to_bspline; rewrite Hd; reflexivity|]. split; [reflexivity|].
  rewrite (nb_equal_weights c 1 1); [|lra|exact per_bs_valid|exact Hf|reflexivity].
  change (nb_base c) with per_bs. rewrite per_bs_1, bs_line_1. apply v1_neq. lra.
Qed.
