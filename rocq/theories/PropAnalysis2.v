(** Property theorems: inflections, singularities and turning angle reduction of planar curves (C52, C76-C80, C98).
    Statements only; the proofs are in AutoThms.v, AutoRational.v, AnalysisThms.v, AnalysisThms2.v and AnalysisThms3.v.
    [eigen], the eigenvalue solver used for polynomials of degree three and more, may be any function in C76-C80. *)
From Coq Require Import Reals Lra Lia ZArith QArith List Sorted.
From Verif Require Import Monad MonadFacts Scalar ScalarFacts Spec SpecAnalysis ModelBezier ModelBSpline ModelRational ModelAnalysis
  AutoFacts AutoThms AutoRational AnalysisThms AnalysisThms2 SpecRoots AnalysisThms3 RationalThms RationalThms2 RationalThms3 ExampleFacts PropBSpline PropBSpline2 PropRational.
Import ListNotations.
Local Open Scope R_scope.

Notation pt x y := ((x%R, (y%R, tt)) : vec R 2).
Notation qt x y := ((x%Q, (y%Q, tt)) : vec Q 2).

(** C52: the generated polynomials, for every supported number of control points.  [cs] is the coefficient vector, lowest
    degree first; the inflection polynomial is the cross product with its sign reversed. *)
Theorem C52_inflection : forall (pts : list (vec R 2)) high, (3 <= length pts <= 11)%nat -> (length pts <= 5)%nat \/ high = true ->
  exists cs (f1 f2 : R -> vec R 2), inflection_coeffs high pts = Ok cs /\ (forall t, vderiv (bernstein_curve pts) t (f1 t)) /\ (forall t, vderiv f1 t (f2 t)) /\
    forall t, rsum (length cs) (fun k => nth k cs 0 * t ^ k) = coord 2 1 (f1 t) * coord 2 0 (f2 t) - coord 2 0 (f1 t) * coord 2 1 (f2 t).
Proof. exact inflection_poly. Qed.
Print Assumptions C52_inflection.
Theorem C52_singularity : forall (pts : list (vec R 2)) high, (3 <= length pts <= 7)%nat -> (length pts <= 5)%nat \/ high = true ->
  exists cs (f1 f2 : R -> vec R 2), singularity_coeffs high pts = Ok cs /\ (forall t, vderiv (bernstein_curve pts) t (f1 t)) /\ (forall t, vderiv f1 t (f2 t)) /\
    forall t, rsum (length cs) (fun k => nth k cs 0 * t ^ k) = coord 2 0 (f1 t) * coord 2 0 (f1 t) + coord 2 1 (f1 t) * coord 2 1 (f1 t).
Proof. exact singularity_poly. Qed.
Print Assumptions C52_singularity.
Theorem C52_tangent : forall nx ny (pts : list (vec R 2)) high, (3 <= length pts <= 11)%nat -> (length pts <= 5)%nat \/ high = true ->
  exists cs (f1 f2 : R -> vec R 2), tangent_coeffs high pts nx ny = Ok cs /\ (forall t, vderiv (bernstein_curve pts) t (f1 t)) /\ (forall t, vderiv f1 t (f2 t)) /\
    forall t, rsum (length cs) (fun k => nth k cs 0 * t ^ k) = coord 2 0 (f1 t) * nx + coord 2 1 (f1 t) * ny.
Proof. exact tangent_poly. Qed.
Print Assumptions C52_tangent.
(** Rational curves: the same up to a power of the denominator [W]. *)
Theorem C52_rational_inflection : forall (pts : list (vec R 2)) ws, (3 <= length pts <= 5)%nat -> length ws = length pts ->
  let W t := weight_sum (length pts) (bezier_basis (length pts) t) ws in
  exists cs (f1 f2 : R -> vec R 2), rinflection_coeffs pts ws = Ok cs /\ forall t, W t <> 0 ->
    vderiv (fun x => weighted_mean (length pts) (bezier_basis (length pts) x) ws pts) t (f1 t) /\ vderiv f1 t (f2 t) /\
    rsum (length cs) (fun k => nth k cs 0 * t ^ k)
      = W t ^ 5 * (coord 2 1 (f1 t) * coord 2 0 (f2 t) - coord 2 0 (f1 t) * coord 2 1 (f2 t)).
Proof. exact rinflection_poly. Qed.
Print Assumptions C52_rational_inflection.
Theorem C52_rational_singularity : forall (pts : list (vec R 2)) ws, (3 <= length pts <= 4)%nat -> length ws = length pts ->
  let W t := weight_sum (length pts) (bezier_basis (length pts) t) ws in
  exists cs (f1 : R -> vec R 2), rsingularity_coeffs pts ws = Ok cs /\ forall t, W t <> 0 ->
    vderiv (fun x => weighted_mean (length pts) (bezier_basis (length pts) x) ws pts) t (f1 t) /\
    rsum (length cs) (fun k => nth k cs 0 * t ^ k) = W t ^ 4 * (coord 2 0 (f1 t) * coord 2 0 (f1 t) + coord 2 1 (f1 t) * coord 2 1 (f1 t)).
Proof. exact rsingularity_poly. Qed.
Print Assumptions C52_rational_singularity.
(** The tangent polynomial of rational curves ignores the weights: a root of it need not have the tangent asked for. *)
Theorem C52_rational_tangent_refuted : exists (pts : list (vec R 2)) ws nx ny cs t v, length ws = length pts /\ Forall (fun w => 0 < w) ws /\ 0 < t < 1 /\
  rtangent_coeffs pts ws nx ny = Ok cs /\ rsum (length cs) (fun k => nth k cs 0 * t ^ k) = 0 /\
  vderiv (fun x => weighted_mean (length pts) (bezier_basis (length pts) x) ws pts) t v /\ coord 2 0 v * nx + coord 2 1 v * ny <> 0.
Proof. exact rtangent_wrong. Qed.
Print Assumptions C52_rational_tangent_refuted.
Theorem C52_rational_tangent_actual : forall (pts : list (vec R 2)) ws nx ny, (3 <= length pts <= 5)%nat -> length ws = length pts ->
  rtangent_coeffs pts ws nx ny = tangent_coeffs false pts nx ny.
Proof. exact rtangent_unweighted. Qed.
Print Assumptions C52_rational_tangent_actual.

Example C52_hyp : (3 <= length [pt 0 0; pt 1 2; pt 3 1; pt 4 0] <= 5)%nat /\ length [1; 2; 1; 3]%R = length [pt 0 0; pt 1 2; pt 3 1; pt 4 0] /\
  weight_sum 4 (bezier_basis 4 0) [1; 2; 1; 3] <> 0.
Proof. split; [cbn; lia|]. split; [reflexivity|]. unfold weight_sum, rsum, bezier_basis, bernstein, C. cbn. lra. Qed.
Example C52_run : inflection_coeffs false [qt 0 0; qt 1 1; qt 2 (-1); qt 3 0] = Ok [54; -108; 0]%Q /\
  singularity_coeffs false [qt 0 0; qt 1 1; qt 2 0] = Ok [8; -16; 16]%Q /\
  tangent_coeffs false [qt 0 0; qt 1 1; qt 2 0] 0%Q 1%Q = Ok [2; -4]%Q /\
  inflection_coeffs false [qt 0 0; qt 1 1; qt 2 0; qt 1 1; qt 2 0; qt 1 1] = Throw not_implemented_error.
Proof. vm_compute. repeat split; reflexivity. Qed.

(** C76: results are strictly increasing and inside the interval asked for. *)
Theorem C76_bezier : forall eigen high c a b l, a <= b ->
  bz_compute_inflections eigen high c a b = Ok l \/ bz_reduce_turning_angle eigen high c a b = Ok l \/
  bz_compute_singularities eigen high c a b = Ok l \/ bz3_compute_inflections eigen c a b = Ok l \/
  bz2_reduce_turning_angle eigen c a b = Ok l \/ bz3_reduce_turning_angle eigen c a b = Ok l -> in_range a b l.
Proof. exact bz_analysis_range. Qed.
Print Assumptions C76_bezier.
Theorem C76_rational_bezier : forall eigen c a b l, a <= b ->
  rb_compute_inflections eigen c a b = Ok l \/ rb_reduce_turning_angle eigen c a b = Ok l \/ rb_compute_singularities eigen c a b = Ok l ->
  in_range a b l.
Proof. exact rb_analysis_range. Qed.
Print Assumptions C76_rational_bezier.
Theorem C76_bspline : forall eigen high (c : bspline R (vec R 2)) a b l,
  valid_bspline (bs_pts c) (bs_knots c) -> knots_apart (/ IZR (10 ^ 16)) (bs_knots c) ->
  nth (bspline_degree (bs_pts c) (bs_knots c)) (bs_knots c) 0 < nth (bspline_degree (bs_pts c) (bs_knots c) + 1) (bs_knots c) 0 ->
  a <= b ->
  bs_compute_inflections eigen high c a b = Ok l \/ bs_reduce_turning_angle eigen high c a b = Ok l \/ bs_compute_singularities eigen high c a b = Ok l ->
  in_range a b l.
Proof. exact bs_analysis_range. Qed.
Print Assumptions C76_bspline.
Theorem C76_nurbs : forall eigen (c cn : nurbs R 2) a b l,
  nb_initialize c = Ok c -> Forall (fun w => 0 < w) (nb_weights c) -> nb_initialize (nb_set_periodic c false) = Ok cn ->
  valid_bspline (nb_pts c) (nb_knots c) -> knots_apart (/ IZR (10 ^ 16)) (nb_knots c) ->
  nth (bspline_degree (nb_pts c) (nb_knots c)) (nb_knots c) 0 < nth (bspline_degree (nb_pts c) (nb_knots c) + 1) (nb_knots c) 0 ->
  a <= b ->
  nb_compute_inflections eigen c a b = Ok l \/ nb_reduce_turning_angle eigen c a b = Ok l \/ nb_compute_singularities eigen c a b = Ok l ->
  in_range a b l.
Proof. exact nb_analysis_range. Qed.
Print Assumptions C76_nurbs.

(** A cubic B-spline with two inflections, found in the order of their parameters. *)
Definition no_eigen {T} : list (list T) -> res (list (T * T)) := fun _ => Ok [].
Definition exq_wave : bspline Q (vec Q 2) :=
  {| bs_pts := [qt 0 0; qt 1 1; qt 2 (-1); qt 3 0; qt 4 1; qt 5 (-1); qt 6 0];
     bs_knots := [0; 0; 0; 0; 1; 1; 1; 2; 2; 2; 2]%Q; bs_periodic := false |}.
Example C76_run : match bs_compute_inflections no_eigen false exq_wave 0%Q 2%Q with Ok l => map Qred l | _ => [] end = [1#2; 3#2]%Q /\
  bz_compute_inflections no_eigen false (mk_bezier [qt 0 0; qt 1 1; qt 2 (-1); qt 3 0]) 0%Q (1#3)%Q = Ok [].
Proof. vm_compute. split; reflexivity. Qed.

(** C77: the inflections reported for a cubic are exactly the zeros of the cross product in the interval, provided that
    polynomial is not within 1e-8 of a lower degree or of a double root. *)
Theorem C77_cubic_inflections_partial : forall eigen high c f1 f2 k0 k1 k2 a b,
  length (bz_pts c) = 4%nat -> derivs2 (bernstein_curve (bz_pts c)) f1 f2 ->
  (forall t, cross2 (f1 t) (f2 t) = k0 + k1 * t + k2 * t ^ 2) -> clear_quadratic (1 / 10 ^ 8) k2 k1 k0 ->
  exists l, bz_compute_inflections eigen high c a b = Ok l /\ bz3_compute_inflections eigen c a b = Ok l /\
    StronglySorted Rlt l /\ forall t, In t l <-> a <= t <= b /\ cross2 (f1 t) (f2 t) = 0.
Proof. exact cubic_inflections. Qed.
Print Assumptions C77_cubic_inflections_partial.
(** Without the proviso it is false: the tolerance is absolute, an S of size 1e-6 has none. *)
Theorem C77_small_curve_refuted :
  let small_s := [pt 0 0; pt (1 / 10 ^ 6) (1 / 10 ^ 6); pt (2 / 10 ^ 6) (- (1 / 10 ^ 6)); pt (3 / 10 ^ 6) 0] in
  exists f1 f2, derivs2 (bernstein_curve small_s) f1 f2 /\
  cross2 (f1 (1 / 2)) (f2 (1 / 2)) = 0 /\ cross2 (f1 0) (f2 0) < 0 < cross2 (f1 1) (f2 1) /\ norm2 (f1 (1 / 2)) <> 0 /\
  forall eigen high, bz_compute_inflections eigen high (mk_bezier small_s) 0 1 = Ok [] /\ bz3_compute_inflections eigen (mk_bezier small_s) 0 1 = Ok [].
Proof. exact small_missed. Qed.
Print Assumptions C77_small_curve_refuted.
Example C77_hyp : exists f1 f2, derivs2 (bernstein_curve [pt 0 0; pt 1 1; pt 2 (-1); pt 3 0]) f1 f2 /\
  (forall t, cross2 (f1 t) (f2 t) = - 54 + 108 * t + 0 * t ^ 2) /\ clear_quadratic (1 / 10 ^ 8) 0 108 (- 54).
Proof.
  destruct (curve_planar_derivs [pt 0 0; pt 1 1; pt 2 (-1); pt 3 0]) as [D1 D2]; [cbn; lia|]. eexists _, _. split; [split; [exact D1|exact D2]|].
  split; [intros t; unfold cross2; cbn; ring|]. right. left. split; [reflexivity|]. rewrite Rabs_right; lra.
Qed.
Example C77_run : bz_compute_inflections no_eigen false (mk_bezier [qt 0 0; qt 1 1; qt 2 (-1); qt 3 0]) 0%Q 1%Q = Ok [1#2]%Q.
Proof. vm_compute. reflexivity. Qed.

(** C78: the singularities reported for a quadratic curve are exactly the zeros of its derivative. *)
Theorem C78_quadratic_singularities_partial : forall eigen high c f1 f2 a b,
  length (bz_pts c) = 3%nat -> derivs2 (bernstein_curve (bz_pts c)) f1 f2 -> 1 / 10 ^ 8 <= norm2 (f2 0) ^ 2 ->
  exists l, bz_compute_singularities eigen high c a b = Ok l /\
    StronglySorted Rlt l /\ forall t, In t l <-> a <= t <= b /\ coord 2 0 (f1 t) = 0 /\ coord 2 1 (f1 t) = 0.
Proof. exact quadratic_singularities. Qed.
Print Assumptions C78_quadratic_singularities_partial.
Example C78_hyp : exists f1 f2, derivs2 (bernstein_curve [pt 0 0; pt 1 1; pt 0 0]) f1 f2 /\ 1 / 10 ^ 8 <= norm2 (f2 0) ^ 2.
Proof.
  destruct (curve_planar_derivs [pt 0 0; pt 1 1; pt 0 0]) as [D1 D2]; [cbn; lia|]. eexists _, _. split; [split; [exact D1|exact D2]|].
  unfold norm2. rewrite pow2_sqrt by (apply Rplus_le_le_0_compat; apply pow2_ge_0). cbn. lra.
Qed.
Example C78_run : bz_compute_singularities no_eigen false (mk_bezier [qt 0 0; qt 1 1; qt 0 0]) 0%Q 1%Q = Ok [1#2]%Q.
Proof. vm_compute. reflexivity. Qed.

(** C79: turning angle reduction returns exactly the parameters whose tangent is parallel to the sum of the unit tangents
    at the ends of the interval. *)
Theorem C79_quadratic_partial : forall eigen high (pts : list (vec R 2)) f1 f2 a b, length pts = 3%nat -> derivs2 (bernstein_curve pts) f1 f2 ->
  1 / 10 ^ 8 <= norm2 (f1 a) -> 1 / 10 ^ 8 <= norm2 (f1 b) ->
  2 / 10 ^ 8 <= Rabs (cross2 (f2 0) (bisector (f1 a) (f1 b))) ->
  exists l, bz_reduce_turning_angle eigen high (mk_bezier pts) a b = Ok l /\ bz2_reduce_turning_angle eigen (mk_bezier pts) a b = Ok l /\
    StronglySorted Rlt l /\ forall t, In t l <-> a <= t <= b /\ cross2 (f1 t) (bisector (f1 a) (f1 b)) = 0.
Proof. exact quadratic_reduce. Qed.
Print Assumptions C79_quadratic_partial.
Theorem C79_cubic_partial : forall eigen high (pts : list (vec R 2)) f1 f2 k0 k1 k2 a b, length pts = 4%nat -> derivs2 (bernstein_curve pts) f1 f2 ->
  1 / 10 ^ 8 <= norm2 (f1 a) -> 1 / 10 ^ 8 <= norm2 (f1 b) ->
  (forall t, cross2 (f1 t) (bisector (f1 a) (f1 b)) / 2 = k0 + k1 * t + k2 * t ^ 2) -> clear_quadratic (1 / 10 ^ 8) k2 k1 k0 ->
  exists l, bz_reduce_turning_angle eigen high (mk_bezier pts) a b = Ok l /\
    (2 / 10 ^ 8 <= norm2 (padd (f1 a) (f1 b)) -> bz3_reduce_turning_angle eigen (mk_bezier pts) a b = Ok l) /\
    StronglySorted Rlt l /\ forall t, In t l <-> a <= t <= b /\ cross2 (f1 t) (bisector (f1 a) (f1 b)) = 0.
Proof. exact cubic_reduce. Qed.
Print Assumptions C79_cubic_partial.
Example C79_hyp : exists f1 f2, derivs2 (bernstein_curve [pt 0 0; pt 1 0; pt 1 1]) f1 f2 /\
  1 / 10 ^ 8 <= norm2 (f1 0) /\ 1 / 10 ^ 8 <= norm2 (f1 1) /\ 2 / 10 ^ 8 <= Rabs (cross2 (f2 0) (bisector (f1 0) (f1 1))).
Proof.
  destruct (curve_planar_derivs [pt 0 0; pt 1 0; pt 1 1]) as [D1 D2]; [cbn; lia|]. eexists _, _. split; [split; [exact D1|exact D2]|].
  match goal with |- _ <= norm2 ?x /\ _ <= norm2 ?y /\ _ => assert (N0 : norm2 x = 2); [|assert (N1 : norm2 y = 2)] end.
  - unfold norm2. rewrite <- (sqrt_pow2 2) by lra. f_equal. cbn. ring.
  - unfold norm2. rewrite <- (sqrt_pow2 2) by lra. f_equal. cbn. ring.
  - rewrite N0, N1. split; [lra|]. split; [lra|]. unfold bisector. rewrite N0, N1. unfold cross2. cbn.
    match goal with |- _ <= Rabs ?x => replace x with (-4) by (cbn; field) end. rewrite Rabs_left; lra.
Qed.

(** C80: an identically vanishing polynomial.  Inflections and turning angle reduction catch the exception of the root
    finder; singularities do not. *)
Theorem C80_caught : forall eigen high (c : bezier (vec R 2)) a b,
  bz_compute_inflections eigen high c a b <> Throw infinite_root_error /\ bz3_compute_inflections eigen c a b <> Throw infinite_root_error.
Proof. exact inflections_caught. Qed.
Print Assumptions C80_caught.
Theorem C80_constant_refuted : forall eigen high n (p : vec R 2) a b, (3 <= n <= 5)%nat -> a < b ->
  bz_compute_singularities eigen high (mk_bezier (repeat p n)) a b = Throw infinite_root_error.
Proof. exact constant_singularities. Qed.
Print Assumptions C80_constant_refuted.
(** A generic curve of degree one throws as well, the degree one class returns an empty list. *)
Theorem C80_linear_refuted : forall eigen high (p q : vec R 2) a b, bz_compute_singularities eigen high (mk_bezier [p; q]) a b = Throw not_implemented_error.
Proof. exact linear_singularities. Qed.
Print Assumptions C80_linear_refuted.
Example C80_hyp : (3 <= 4 <= 5)%nat /\ bz_compute_singularities no_eigen false (mk_bezier (repeat (qt 1 2) 4)) 0%Q 1%Q = Throw infinite_root_error /\
  bz_compute_inflections no_eigen false (mk_bezier (repeat (qt 1 2) 4)) 0%Q 1%Q = Ok [].
Proof. split; [lia|]. vm_compute. split; reflexivity. Qed.

(** C98: curves whose polynomials have degree three and more.  [ks] are the coefficients of the polynomial (cross product, squared
    speed, cross product with the bisector), leading coefficient at least 1e-8; Eigen lists exactly the complex eigenvalues of a
    matrix when it succeeds and does not throw.  Nothing is missed, and a reported parameter is the real part of a complex root whose
    modulus exceeds it by at most 1e-8. *)
Theorem C98_inflections : forall eigen high c (f1 f2 : R -> vec R 2) (ks : list R) (a b : R) l, (length (bz_pts c) <= 5)%nat \/ high = true ->
  derivs2 (bernstein_curve (bz_pts c)) f1 f2 -> a < b -> eigenvalue_solver Ok eigen -> (forall m e, eigen m <> Throw e) ->
  (5 <= length (bz_pts c) <= 11)%nat -> length ks = (2 * length (bz_pts c) - 5)%nat ->
  (forall t, cross2 (f1 t) (f2 t) = rsum (length ks) (fun k => nth k ks 0 * t ^ k)) -> 1 / 10 ^ 8 <= Rabs (nth (length ks - 1) ks 0) ->
  bz_compute_inflections eigen high c a b = Ok l ->
  StronglySorted Rlt l /\ (forall t, a <= t <= b -> cross2 (f1 t) (f2 t) = 0 -> In t l) /\
  forall t, In t l <-> a <= t <= b /\ nearly_real_root (1 / 10 ^ 8) (length ks - 1) ks t.
Proof. exact high_inflections. Qed.
Print Assumptions C98_inflections.
Theorem C98_singularities : forall eigen high c (f1 f2 : R -> vec R 2) (ks : list R) (a b : R) l, (length (bz_pts c) <= 5)%nat \/ high = true ->
  derivs2 (bernstein_curve (bz_pts c)) f1 f2 -> a < b -> eigenvalue_solver Ok eigen ->
  (4 <= length (bz_pts c) <= 7)%nat -> length ks = (2 * length (bz_pts c) - 3)%nat ->
  (forall t, norm2 (f1 t) ^ 2 = rsum (length ks) (fun k => nth k ks 0 * t ^ k)) -> 1 / 10 ^ 8 <= Rabs (nth (length ks - 1) ks 0) ->
  bz_compute_singularities eigen high c a b = Ok l ->
  StronglySorted Rlt l /\ (forall t, a <= t <= b -> f1 t = p0 -> In t l) /\
  forall t, In t l <-> a <= t <= b /\ nearly_real_root (1 / 10 ^ 8) (length ks - 1) ks t.
Proof. exact high_singularities. Qed.
Print Assumptions C98_singularities.
Theorem C98_reduce : forall eigen high c (f1 f2 : R -> vec R 2) (ks : list R) (a b : R) l, (length (bz_pts c) <= 5)%nat \/ high = true ->
  derivs2 (bernstein_curve (bz_pts c)) f1 f2 -> a < b -> eigenvalue_solver Ok eigen -> (forall m e, eigen m <> Throw e) ->
  (5 <= length (bz_pts c) <= 11)%nat -> length ks = (length (bz_pts c) - 1)%nat -> bz_periodic c = false ->
  1 / 10 ^ 8 <= norm2 (f1 a) -> 1 / 10 ^ 8 <= norm2 (f1 b) ->
  (forall t, cross2 (f1 t) (bisector (f1 a) (f1 b)) / 2 = rsum (length ks) (fun k => nth k ks 0 * t ^ k)) -> 1 / 10 ^ 8 <= Rabs (nth (length ks - 1) ks 0) ->
  bz_reduce_turning_angle eigen high c a b = Ok l ->
  StronglySorted Rlt l /\ (forall t, a <= t <= b -> cross2 (f1 t) (bisector (f1 a) (f1 b)) = 0 -> In t l) /\
  forall t, In t l <-> a <= t <= b /\ nearly_real_root (1 / 10 ^ 8) (length ks - 1) ks t.
Proof. exact high_reduce. Qed.
Print Assumptions C98_reduce.
(** (t^3, t^4 + t^2/2), the cusp ((t - 1/2)^2, (t - 1/2)^3) and (t, (3/2)(t - 1/2)^4): all hypotheses at once. *)
Example C98_hyp_inflections : exists f1 f2 eigen l, derivs2 (bernstein_curve quartic_s) f1 f2 /\
  (forall t, cross2 (f1 t) (f2 t) = rsum 5 (fun k => nth k [0; 0; -3; 0; 12] 0 * t ^ k)) /\ 1 / 10 ^ 8 <= Rabs (nth 4 [0; 0; -3; 0; 12] 0) /\
  eigenvalue_solver Ok eigen /\ (forall m e, eigen m <> Throw e) /\ bz_compute_inflections eigen false (mk_bezier quartic_s) 0 1 = Ok l.
Proof. exact quartic_s_case. Qed.
Example C98_hyp_singularities : exists f1 f2 eigen l, derivs2 (bernstein_curve cusp) f1 f2 /\
  (forall t, norm2 (f1 t) ^ 2 = rsum 5 (fun k => nth k [25 / 16; - (17 / 2); 35 / 2; -18; 9] 0 * t ^ k)) /\ 1 / 10 ^ 8 <= Rabs (nth 4 [25 / 16; - (17 / 2); 35 / 2; -18; 9] 0) /\
  eigenvalue_solver Ok eigen /\ (forall m e, eigen m <> Throw e) /\ bz_compute_singularities eigen false (mk_bezier cusp) 0 1 = Ok l /\ f1 (1 / 2) = p0.
Proof. exact cusp_case. Qed.
Example C98_hyp_reduce : exists f1 f2 eigen l, derivs2 (bernstein_curve bowl) f1 f2 /\ 1 / 10 ^ 8 <= norm2 (f1 0) /\ 1 / 10 ^ 8 <= norm2 (f1 1) /\
  (forall t, cross2 (f1 t) (bisector (f1 0) (f1 1)) / 2 = rsum 4 (fun k => nth k [3 / 5; - (18 / 5); 36 / 5; - (24 / 5)] 0 * t ^ k)) /\
  1 / 10 ^ 8 <= Rabs (nth 3 [3 / 5; - (18 / 5); 36 / 5; - (24 / 5)] 0) /\
  eigenvalue_solver Ok eigen /\ (forall m e, eigen m <> Throw e) /\ bz_reduce_turning_angle eigen false (mk_bezier bowl) 0 1 = Ok l.
Proof. exact bowl_case. Qed.
