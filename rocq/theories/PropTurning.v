(** Property theorems: get_turning_angle of the curve classes (C99-C103).
    Statements only; the proofs are in TurningThms.v, TurningThms2.v, TurningThms3.v, TurningThms4.v and TurningThms5.v.
    [turning f1 a b theta] (SpecTurning.v): the tangent [f1] follows a continuous angle that grows by [theta] from [a] to [b]. *)
From Coq Require Import Reals Lra Lia ZArith List.
From Verif Require Import Monad MonadFacts Scalar ScalarFacts Spec SpecGeom SpecAnalysis SpecPrimitive SpecTurning ModelCurve ModelBezier ModelBSpline ModelRational ModelLine ModelPrimitive ModelPatch
  BezierThms RationalThms ModelTurning TurningFacts TurningThms TurningThms2 TurningThms3 TurningThms4 TurningThms5.
Import ListNotations.
Local Open Scope R_scope.

Notation pt x y := ((x%R, (y%R, tt)) : vec R 2).

(** The turning angle of a regular curve is unique. *)
Theorem C99_unique : forall (f1 : R -> vec R 2) (a b th th' : R), a <= b -> (forall t, a <= t <= b -> 0 < norm2 (f1 t)) ->
  turning f1 a b th -> turning f1 a b th' -> th = th'.
Proof. exact turning_unique. Qed.
Print Assumptions C99_unique.

(** C99: the base class, inherited by the ellipse.  [d1] is evaluate_derivative.
    The result is the oriented angle between the end tangents. *)
Theorem C99_oriented : forall (d1 : R -> res (vec R 2)) (v w : vec R 2) (t0 t1 : R), d1 t0 = Ok v -> d1 t1 = Ok w -> / IZR (2 ^ 52) <= norm2 v -> / IZR (2 ^ 52) <= norm2 w ->
  exists theta, base_turning_angle d1 t0 t1 = Ok theta /\ oriented_angle v w theta.
Proof. exact base_oriented. Qed.
Print Assumptions C99_oriented.
(** It is the angle the curve turns by, if that is less than half a turn. *)
Theorem C99_total_partial : forall (d1 : R -> res (vec R 2)) (f1 : R -> vec R 2) (t0 t1 theta : R), t0 <= t1 -> d1 t0 = Ok (f1 t0) -> d1 t1 = Ok (f1 t1) ->
  / IZR (2 ^ 52) <= norm2 (f1 t0) -> / IZR (2 ^ 52) <= norm2 (f1 t1) -> turning f1 t0 t1 theta -> Rabs theta < PI ->
  base_turning_angle d1 t0 t1 = Ok theta.
Proof. exact base_total. Qed.
Print Assumptions C99_total_partial.
(** Short tangents: up to ten times each end moves inwards by 1/1000 of the interval that is left; the result is the oriented angle
    between the tangents where the search stops, and it stops at the first tangent long enough. *)
Theorem C99_retry : forall (f1 : R -> vec R 2) (d1 : R -> res (vec R 2)) (t0 t1 : R), (forall t, d1 t = Ok (f1 t)) ->
  exists j k, (j <= 10)%nat /\ (k <= 10)%nat /\
    let a := t1 - (t1 - t0) * (999 / 1000) ^ j in
    let b := a + (t1 - a) * (999 / 1000) ^ k in
    (forall i, (i < j)%nat -> norm2 (f1 (t1 - (t1 - t0) * (999 / 1000) ^ i)) < / IZR (2 ^ 52)) /\ ((j < 10)%nat -> / IZR (2 ^ 52) <= norm2 (f1 a)) /\
    (forall i, (i < k)%nat -> norm2 (f1 (a + (t1 - a) * (999 / 1000) ^ i)) < / IZR (2 ^ 52)) /\ ((k < 10)%nat -> / IZR (2 ^ 52) <= norm2 (f1 b)) /\
    exists theta, base_turning_angle d1 t0 t1 = Ok theta /\ oriented_angle (f1 a) (f1 b) theta.
Proof. exact base_retry. Qed.
Print Assumptions C99_retry.
Theorem C99_dimension : forall d : nat, (d =? 2)%nat = false -> forall (d1 : R -> res (vec R d)) (n : Z) (t0 t1 : R),
  base_turning_angle d1 t0 t1 = Throw runtime_error /\ sampled_turning_angle d1 n t0 t1 = Throw invalid_setting_error.
Proof. exact other_dims. Qed.
Print Assumptions C99_dimension.
(** A whole ellipse turns by 2 pi; the result is 0. *)
Theorem C99_full_turn_refuted : forall a b : R, / IZR (2 ^ 52) <= b <= a ->
  el_turning_angle (std_ellipse a b) 0 (2 * PI) = Ok 0 /\ turning (ell_tan a b) 0 (2 * PI) (2 * PI) /\ ~ turning (ell_tan a b) 0 (2 * PI) 0.
Proof. exact ellipse_full. Qed.
Print Assumptions C99_full_turn_refuted.
(** A small circle given as an ellipse: all tangents are too short, ten moves are made at both ends, and a quarter turn loses two percent. *)
Theorem C99_small_refuted : forall r : R, 0 < r < / IZR (2 ^ 52) ->
  el_turning_angle (std_ellipse r r) 0 (PI / 2) = Ok (PI / 2 * (999 / 1000) ^ 20) /\ turning (ell_tan r r) 0 (PI / 2) (PI / 2) /\
  oriented_angle (ell_tan r r 0) (ell_tan r r (PI / 2)) (PI / 2).
Proof. exact small_quarter. Qed.
Print Assumptions C99_small_refuted.
(** [ell_tan] is what the derivative of [std_ellipse] returns. *)
Example C99_ellipse_tangent : forall a b t : R, el_evaluate_derivative (std_ellipse a b) t = Ok (ell_tan a b t).
Proof. exact ell_derivative. Qed.
(** The parabola (t, t^2) meets the hypotheses of C99_total_partial on [0, 1]. *)
Example C99_total_case : base_turning_angle (fun t => Ok (parab1 t)) 0 1 = Ok (atan 2 - atan 0).
Proof.
  assert (E : forall t, / IZR (2 ^ 52) <= norm2 (parab1 t)).
  { intros t. apply Rle_trans with 1.
    - apply Rle_trans with (/ 1); [|lra]. apply Rinv_le_contravar; [lra|]. apply (IZR_le 1). lia.
    - unfold norm2, inner. rewrite <- sqrt_1 at 1. apply sqrt_le_1_alt. unfold rsum, parab1, P2. cbn. nra. }
  apply (C99_total_partial (fun t => Ok (parab1 t)) parab1 0 1); try reflexivity; try apply E; [lra| |].
  - replace (atan 2 - atan 0) with (atan (2 * 1) - atan (2 * 0)) by (f_equal; [|f_equal]; f_equal; lra). apply parab_turning. lra.
  - rewrite atan_0. pose proof (atan_bound 2). apply Rabs_def1; pose proof PI_RGT_0; lra.
Qed.

(** C100: Bezier curves, generic class and fixed degrees 2 and 3.
    The sum of the exterior angles of the subdivided polygon is the turning angle if all edges of the control polygon advance in one direction. *)
Theorem C100_advancing_partial : forall (u : vec R 2) (cv : bezier (vec R 2)) (f1 : R -> vec R 2) (t0 t1 : R), (2 <= length (bz_pts cv))%nat -> advancing u (bz_pts cv) ->
  (forall t, vderiv (bernstein_curve (bz_pts cv)) t (f1 t)) ->
  0 <= t0 <= t1 -> t1 <= 1 -> exists theta, bz_turning_angle cv t0 t1 = Ok theta /\ turning f1 t0 t1 theta.
Proof. exact bezier_turning. Qed.
Print Assumptions C100_advancing_partial.
(** In general it is right up to full turns, if no two neighbouring control points of the sub-curve coincide. *)
Theorem C100_heading_partial : forall (cv : bezier (vec R 2)) (f1 : R -> vec R 2) (l : list (vec R 2)) (t0 t1 : R), (2 <= length (bz_pts cv))%nat ->
  (forall t, vderiv (bernstein_curve (bz_pts cv)) t (f1 t)) -> 0 <= t0 < t1 -> t1 <= 1 ->
  bz_subcurve cv t0 t1 = Ok (mk_bezier l) -> (forall i, (S i < length l)%nat -> nth (S i) l p0 <> nth i l p0) ->
  exists theta, bz_turning_angle cv t0 t1 = Ok theta /\ forall phi, heading (f1 t0) phi -> heading (f1 t1) (phi + theta).
Proof. exact bezier_heading. Qed.
Print Assumptions C100_heading_partial.
Theorem C100_throws : forall (d : nat) (cv : bezier (vec R d)) (t0 t1 : R), d = 2%nat -> t1 < t0 \/ t0 < 0 \/ 1 < t1 -> bz_turning_angle cv t0 t1 = Throw invalid_setting_error.
Proof. exact bezier_turning_throws. Qed.
Print Assumptions C100_throws.
Theorem C100_quadratic : forall (pts : list (vec R 2)) (f1 : R -> vec R 2) (t0 t1 : R), length pts = 3%nat -> (forall t, vderiv (bernstein_curve pts) t (f1 t)) -> t0 <= t1 ->
  (forall t, t0 <= t <= t1 -> 0 < norm2 (f1 t)) -> exists theta, bz2_turning_angle (mk_bezier pts) t0 t1 = Ok theta /\ turning f1 t0 t1 theta.
Proof. exact quadratic_turning. Qed.
Print Assumptions C100_quadratic.
(** Cubic curves agree with the generic class from the start or to the end, and use a wrong upper end inside. *)
Theorem C100_cubic_ends : forall (pts : list (vec R 2)) (t0 t1 : R), length pts = 4%nat -> (t0 = 0 /\ 0 < t1 <= 1) \/ (0 <= t0 < 1 /\ t1 = 1) ->
  bz3_turning_angle (mk_bezier pts) t0 t1 = bz_turning_angle (mk_bezier pts) t0 t1.
Proof. exact cubic_ends. Qed.
Print Assumptions C100_cubic_ends.
Theorem C100_cubic_interior : forall (pts : list (vec R 2)) (t0 t1 : R), length pts = 4%nat -> 0 < t0 < 1 -> t0 <= t1 < 1 ->
  bz3_turning_angle (mk_bezier pts) t0 t1 = bz_turning_angle (mk_bezier pts) t0 (t0 + (1 - t0) * t1).
Proof. exact cubic_interior. Qed.
Print Assumptions C100_cubic_interior.
Theorem C100_cubic_interior_refuted : exists (f1 : R -> vec R 2) (theta : R), (forall t, vderiv (bernstein_curve bending) t (f1 t)) /\ (forall t, 0 <= t <= 1 -> 0 < norm2 (f1 t)) /\
  bz3_turning_angle (mk_bezier bending) (1 / 4) (1 / 2) = Ok theta /\ turning f1 (1 / 4) (5 / 8) theta /\ ~ turning f1 (1 / 4) (1 / 2) theta.
Proof. exact bending_turning. Qed.
Print Assumptions C100_cubic_interior_refuted.
(** A regular cubic whose polygon turns the other way: a full turn too much. *)
Theorem C100_full_turn_refuted : exists f1 : R -> vec R 2, (forall t, vderiv (bernstein_curve [pt 0 0; pt 10 10; pt 1 10; pt 11 0]) t (f1 t)) /\ (forall t, 0 <= t <= 1 -> 0 < norm2 (f1 t)) /\
  bz_turning_angle (mk_bezier [pt 0 0; pt 10 10; pt 1 10; pt 11 0]) 0 1 = Ok (3 * PI / 2) /\
  bz3_turning_angle (mk_bezier [pt 0 0; pt 10 10; pt 1 10; pt 11 0]) 0 1 = Ok (3 * PI / 2) /\ turning f1 0 1 (- (PI / 2)).
Proof. exact near_cusp_turning. Qed.
Print Assumptions C100_full_turn_refuted.
(** A regular cubic with a double control point: a quarter turn is not seen. *)
Theorem C100_double_point_refuted : exists f1 : R -> vec R 2, (forall t, vderiv (bernstein_curve [pt 0 0; pt 1 0; pt 1 0; pt 1 1]) t (f1 t)) /\ (forall t, 0 <= t <= 1 -> 0 < norm2 (f1 t)) /\
  bz_turning_angle (mk_bezier [pt 0 0; pt 1 0; pt 1 0; pt 1 1]) 0 1 = Ok 0 /\ bz3_turning_angle (mk_bezier [pt 0 0; pt 1 0; pt 1 0; pt 1 1]) 0 1 = Ok 0 /\ turning f1 0 1 (PI / 2).
Proof. exact doubled_turning. Qed.
Print Assumptions C100_double_point_refuted.
Example C100_advancing_case : advancing (pt 1 0) [pt 0 0; pt 1 0; pt 2 1; pt 3 3] /\ (2 <= length [pt 0 0; pt 1 0; pt 2 1; pt 3 3])%nat /\
  exists f1, forall t, vderiv (bernstein_curve [pt 0 0; pt 1 0; pt 2 1; pt 3 3]) t (f1 t).
Proof. split; [exact bending_advancing|]. split; [cbn; lia|]. now apply derivative_exists. Qed.
(** A curve with a polygon that does not advance in any direction has distinct neighbours all the same. *)
Example C100_heading_case : exists l, bz_subcurve (mk_bezier [pt 0 0; pt 10 10; pt (-1) 10; pt 9 0]) 0 1 = Ok (mk_bezier l) /\ forall i, (S i < length l)%nat -> nth (S i) l p0 <> nth i l p0.
Proof.
  destruct (segment_edges (mk_bezier [pt 0 0; pt 10 10; pt (-1) 10; pt 9 0]) 2 0 1 eq_refl) as (l & El & Hl & Hs & _); [lra|lra|]. exists l. split; [exact El|].
  assert (l = [pt 0 0; pt 10 10; pt (-1) 10; pt 9 0]) as ->.
  { apply cubic_unique; [exact Hl|reflexivity|]. intros s _. rewrite Hs. f_equal. ring. }
  intros [|[|[|i]]] Hi H; try (cbn in Hi; lia); apply (f_equal (coord 2 0)) in H; cbn in H; lra.
Qed.

(** C101: rational Bezier curves and NURBS: as many tangents as there are control points, between which the base class is used.
    Right if the curve turns by less than half a turn between samples. *)
Theorem C101_rational_partial : forall (c : rbezier R 2) (f1 : R -> vec R 2) (phi : R -> R) (t0 t1 : R), (2 <= length (rb_pts c))%nat -> t0 <= t1 ->
  continuity phi -> (forall t, t0 <= t <= t1 -> rb_evaluate_derivative c t = Ok (f1 t) /\ heading (f1 t) (phi t)) ->
  let s := fun i => t0 + IZR i / IZR (Z.of_nat (length (rb_pts c)) - 1) * (t1 - t0) in
  (forall i, (0 <= i < Z.of_nat (length (rb_pts c)))%Z -> / IZR (2 ^ 52) <= norm2 (f1 (s i))) ->
  (forall i, (0 <= i < Z.of_nat (length (rb_pts c)) - 1)%Z -> Rabs (phi (s (i + 1)%Z) - phi (s i)) < PI) ->
  exists theta, rb_turning_angle c t0 t1 = Ok theta /\ turning f1 t0 t1 theta.
Proof. intros c f1 phi t0 t1 Hn. apply sampled_total. lia. Qed.
Print Assumptions C101_rational_partial.
Theorem C101_nurbs_partial : forall (c : nurbs R 2) (f1 : R -> vec R 2) (phi : R -> R) (t0 t1 : R), (2 <= length (nb_pts c))%nat -> t0 <= t1 ->
  continuity phi -> (forall t, t0 <= t <= t1 -> nb_evaluate_derivative c t = Ok (f1 t) /\ heading (f1 t) (phi t)) ->
  let s := fun i => t0 + IZR i / IZR (Z.of_nat (length (nb_pts c)) - 1) * (t1 - t0) in
  (forall i, (0 <= i < Z.of_nat (length (nb_pts c)))%Z -> / IZR (2 ^ 52) <= norm2 (f1 (s i))) ->
  (forall i, (0 <= i < Z.of_nat (length (nb_pts c)) - 1)%Z -> Rabs (phi (s (i + 1)%Z) - phi (s i)) < PI) ->
  exists theta, nb_turning_angle c t0 t1 = Ok theta /\ turning f1 t0 t1 theta.
Proof. intros c f1 phi t0 t1 Hn. apply sampled_total. lia. Qed.
Print Assumptions C101_nurbs_partial.
(** A cubic with a loop: all samples lie to one side, the turn around the loop is missed. *)
Theorem C101_loop_refuted : exists (f1 : R -> vec R 2) (theta : R), rb_initialize loop_rb = Ok loop_rb /\ (forall t, rb_evaluate_derivative loop_rb t = Ok (f1 t)) /\
  (forall t, 0 <= t <= 1 -> 0 < norm2 (f1 t)) /\ rb_turning_angle loop_rb 0 1 = Ok (- (PI / 2)) /\ turning f1 0 1 theta /\ 0 < theta.
Proof. destruct loop_turning as (f1 & theta & H). exists f1, theta. split; [exact loop_init|exact H]. Qed.
Print Assumptions C101_loop_refuted.

(** C102: B-splines.  [clean_bspline c] (TurningThms4.v): valid knots, distinct knots more than 1e-16 apart, not periodic, the first
    knot span of the domain not empty, multiplicities inside the domain at most the degree.  [smooth_bspline c f f1]: on the domain evaluate returns [f], which
    has the nowhere vanishing derivative [f1]. *)
Theorem C102_quadratic : forall (c : bspline R (vec R 2)) (f f1 : R -> vec R 2) (t0 t1 : R), clean_bspline c -> bspline_degree (bs_pts c) (bs_knots c) = 2%nat -> smooth_bspline c f f1 ->
  lower_of (bs_pts c) (bs_knots c) <= t0 <= t1 -> t1 <= upper_of (bs_pts c) (bs_knots c) -> exists theta, bs_turning_angle 2 c t0 t1 = Ok theta /\ turning f1 t0 t1 theta.
Proof. exact bspline_quadratic. Qed.
Print Assumptions C102_quadratic.
(** Template degrees other than 0 to 3 (dynamic included): if the polygon of every Bezier piece advances in some direction. *)
Theorem C102_generic_partial : forall (tdeg : Z) (c : bspline R (vec R 2)) (f f1 : R -> vec R 2) (t0 t1 : R), ~ (0 <= tdeg <= 3)%Z -> clean_bspline c -> (1 <= bspline_degree (bs_pts c) (bs_knots c))%nat ->
  smooth_bspline c f f1 ->
  (forall segs bounds seg, bs_convert_to_Bezier c = Ok (segs, bounds) -> In seg segs -> exists n, advancing n (bz_pts seg)) ->
  lower_of (bs_pts c) (bs_knots c) <= t0 <= t1 -> t1 <= upper_of (bs_pts c) (bs_knots c) -> exists theta, bs_turning_angle tdeg c t0 t1 = Ok theta /\ turning f1 t0 t1 theta.
Proof. exact bspline_generic. Qed.
Print Assumptions C102_generic_partial.
(** Template degree 3: right if a knot lies in the interval and its ends are not interior knots, ... *)
Theorem C102_cubic_partial : forall (c : bspline R (vec R 2)) (f f1 : R -> vec R 2) (t0 t1 : R), clean_bspline c -> bspline_degree (bs_pts c) (bs_knots c) = 3%nat -> smooth_bspline c f f1 ->
  (forall segs bounds seg, bs_convert_to_Bezier c = Ok (segs, bounds) -> In seg segs -> exists n, advancing n (bz_pts seg)) ->
  let lo := lower_of (bs_pts c) (bs_knots c) in let hi := upper_of (bs_pts c) (bs_knots c) in
  lo <= t0 < t1 -> t1 <= hi -> (In t0 (bs_knots c) -> t0 = lo) -> (In t1 (bs_knots c) -> t1 = hi) -> (exists u, In u (bs_knots c) /\ t0 <= u <= t1) ->
  exists theta, bs_turning_angle 3 c t0 t1 = Ok theta /\ turning f1 t0 t1 theta.
Proof. exact bspline_cubic. Qed.
Print Assumptions C102_cubic_partial.
(** ... up to an interior knot it is the angle up to the next knot, ... *)
Theorem C102_cubic_knot_end : forall (c : bspline R (vec R 2)) (f f1 : R -> vec R 2) (t0 t1 : R), clean_bspline c -> bspline_degree (bs_pts c) (bs_knots c) = 3%nat -> smooth_bspline c f f1 ->
  (forall segs bounds seg, bs_convert_to_Bezier c = Ok (segs, bounds) -> In seg segs -> exists n, advancing n (bz_pts seg)) ->
  let lo := lower_of (bs_pts c) (bs_knots c) in let hi := upper_of (bs_pts c) (bs_knots c) in
  lo <= t0 < t1 -> t1 < hi -> (In t0 (bs_knots c) -> t0 = lo) -> In t1 (bs_knots c) ->
  exists t2 theta, In t2 (bs_knots c) /\ t1 < t2 <= hi /\ (forall u, In u (bs_knots c) -> t1 < u -> t2 <= u \/ hi < u) /\ bs_turning_angle 3 c t0 t1 = Ok theta /\ turning f1 t0 t2 theta.
Proof. exact bspline_cubic_knot_end. Qed.
Print Assumptions C102_cubic_knot_end.
Theorem C102_cubic_knot_end_refuted : exists theta : R, bs_turning_angle 3 parab 0 1 = Ok theta /\ turning parab1 0 2 theta /\ ~ turning parab1 0 1 theta.
Proof. exact parab_knot_end. Qed.
Print Assumptions C102_cubic_knot_end_refuted.
(** ... and from an interior knot the behaviour is undefined (control points of an empty sub-curve). *)
Theorem C102_cubic_knot_start_refuted : forall (c : bspline R (vec R 2)) (t0 t1 : R), clean_bspline c -> bspline_degree (bs_pts c) (bs_knots c) = 3%nat ->
  lower_of (bs_pts c) (bs_knots c) < t0 <= upper_of (bs_pts c) (bs_knots c) -> t0 <= t1 -> In t0 (bs_knots c) -> bs_turning_angle 3 c t0 t1 = Undef.
Proof. exact bspline_cubic_knot_start. Qed.
Print Assumptions C102_cubic_knot_start_refuted.
(** Template degree 1: corners do not count. *)
Theorem C102_linear : forall (c : bspline R (vec R 2)) (t0 t1 : R), clean_bspline c -> bs_turning_angle 1 c t0 t1 = Ok 0.
Proof. exact bspline_linear. Qed.
Print Assumptions C102_linear.
(** The parabola on the knots 0, 0, 0, 0, 1, 2, 2, 2, 2. *)
Example C102_case : clean_bspline parab /\ bspline_degree (bs_pts parab) (bs_knots parab) = 3%nat /\ smooth_bspline parab (fun t => pt t (t ^ 2)) parab1 /\
  (forall segs bounds seg, bs_convert_to_Bezier parab = Ok (segs, bounds) -> In seg segs -> exists n, advancing n (bz_pts seg)) /\
  (forall t0 t1 : R, lower_of (bs_pts parab) (bs_knots parab) <= t0 < 1 -> 1 < t1 <= 2 -> t0 = 0 \/ 0 < t0 -> bs_turning_angle 3 parab t0 t1 = Ok (atan (2 * t1) - atan (2 * t0))).
Proof.
  split; [exact parab_clean|]. split; [reflexivity|]. split; [exact parab_smooth|]. split; [exact parab_advancing|]. intros t0 t1 H0 H1 H2.
  assert (El : lower_of (bs_pts parab) (bs_knots parab) = 0) by reflexivity. assert (Eu : upper_of (bs_pts parab) (bs_knots parab) = 2) by reflexivity.
  destruct (C102_cubic_partial parab _ parab1 t0 t1 parab_clean eq_refl parab_smooth parab_advancing) as (th & E & Ht); rewrite ?El, ?Eu in *; try lra.
  - cbn. intuition lra.
  - cbn. intuition lra.
  - exists 1. split; [cbn; tauto|lra].
  - rewrite E. f_equal. apply parab_unique; [lra|exact Ht].
Qed.
Example C102_knot_start_case : bs_turning_angle 3 parab 1 2 = Undef.
Proof. exact parab_knot_start. Qed.

(** C103: lines and circles. *)
Theorem C103_line : forall (c : line R (vec R 2)) (t0 t1 : R), exists (theta : R) (f1 : R -> vec R 2), ln_turning_angle c t0 t1 = Ok theta /\
  (forall t, ln_evaluate_derivative c t = Ok (f1 t)) /\ turning f1 t0 t1 theta.
Proof. exact line_turning. Qed.
Print Assumptions C103_line.
Theorem C103_circle_partial : forall (c : circle R (vec R 2)) (t0 t1 : R), orthonormal2 (ci_x c) (ci_y c) -> 0 < ci_radius c -> cross2 (ci_x c) (ci_y c) = 1 -> t0 <= t1 ->
  exists (theta : R) (f1 : R -> vec R 2), ci_turning_angle c t0 t1 = Ok theta /\ (forall t, ci_evaluate_derivative c t = Ok (f1 t)) /\ turning f1 t0 t1 theta.
Proof. exact circle_turning. Qed.
Print Assumptions C103_circle_partial.
(** Circles that run clockwise: the sign is wrong. *)
Theorem C103_clockwise_refuted : forall (c : circle R (vec R 2)) (t0 t1 : R), orthonormal2 (ci_x c) (ci_y c) -> 0 < ci_radius c -> cross2 (ci_x c) (ci_y c) = -1 -> t0 < t1 ->
  exists (theta : R) (f1 : R -> vec R 2), ci_turning_angle c t0 t1 = Ok theta /\ (forall t, ci_evaluate_derivative c t = Ok (f1 t)) /\ turning f1 t0 t1 (- theta) /\ ~ turning f1 t0 t1 theta.
Proof. exact circle_clockwise. Qed.
Print Assumptions C103_clockwise_refuted.
Example C103_frames : orthonormal2 (pt 0 1) (pt (-1) 0) /\ cross2 (pt 0 1) (pt (-1) 0) = 1 /\ orthonormal2 (pt 0 1) (pt 1 0) /\ cross2 (pt 0 1) (pt 1 0) = -1.
Proof. unfold orthonormal2, cross2, inner, rsum. cbn. repeat split; ring. Qed.
