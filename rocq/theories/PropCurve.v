(** Property theorems: functions of the base classes of curves and patches (C29, C38, C43, C53, C69).  Statements
    only; the proofs are in CurveThms.v, InverseThms.v and InverseRefute.v.

    [inner] and [edist] (SpecGeom.v) are the inner product and the Euclidean distance.  A curve or patch is given by
    its virtual functions ([curve_ops], [patch_ops]), which may be any functions. *)
From Coq Require Import Reals Lra Lia ZArith QArith List.
From Verif Require Import Monad Scalar ScalarFacts Spec SpecGeom ModelCurve ModelBezier ModelBSpline ModelPatchBase ModelPatch ModelInverse
  ExampleFacts CurveThms InverseThms InverseRefute PropBSpline PropPatch.
Import ListNotations.
Local Open Scope R_scope.

(** The parabola (t, t^2) with its derivatives; used in the examples. *)
Definition parabola : curve_ops R (vec R 2) :=
  {| c_lower := -1; c_upper := 1; c_eval := fun t => Ok ((t, (t * t, tt)) : vec R 2);
     c_d1 := fun t => Ok ((1, (2 * t, tt)) : vec R 2); c_d2 := fun t => Ok ((0, (2, tt)) : vec R 2) |}.
(** The same with rational numbers, to run the model. *)
Definition parabola_q : curve_ops Q (vec Q 2) :=
  {| c_lower := (-1)%Q; c_upper := 1%Q; c_eval := fun t => Ok ((t, (Qred (t * t), tt)) : vec Q 2);
     c_d1 := fun t => Ok ((1%Q, (Qred ((2#1) * t), tt)) : vec Q 2); c_d2 := fun t => Ok ((0%Q, (2%Q, tt)) : vec Q 2) |}.

(** C53: is_closed. *)
Theorem C53_is_closed : forall d (c : curve_ops R (vec R d)) order tol a0 b0 a1 b1 a2 b2,
  c_eval c (c_lower c) = Ok a0 -> c_eval c (c_upper c) = Ok b0 ->
  c_d1 c (c_lower c) = Ok a1 -> c_d1 c (c_upper c) = Ok b1 ->
  c_d2 c (c_lower c) = Ok a2 -> c_d2 c (c_upper c) = Ok b2 ->
  exists r, is_closed c order tol = Ok r /\
    (r = true <-> edist a0 b0 < tol /\ ((1 <= order)%Z -> edist a1 b1 < tol) /\ ((2 <= order)%Z -> edist a2 b2 < tol)).
Proof. exact curve_is_closed. Qed.
Print Assumptions C53_is_closed.

(** The ends of the parabola on [-1,1] are 2 apart, so it is closed up to a tolerance above 2 only. *)
Example C53_hyp : exists a0 b0, c_eval parabola (c_lower parabola) = Ok a0 /\ c_eval parabola (c_upper parabola) = Ok b0 /\ edist a0 b0 = 2.
Proof.
  eexists; eexists. split; [reflexivity|]. split; [reflexivity|]. unfold edist, rsum. cbn [c_lower c_upper parabola psum coord fst snd padd p0 scal_point_ops sadd s0 R_ops].
  replace (_ + _)%R with (Rsqr 2) by (unfold Rsqr; ring). apply sqrt_Rsqr. lra.
Qed.

(** C29: the curvature vector.  [d2 = |d1|^2 k + (d1.d2/|d1|^2) d1] says that |d1|^2 k is the part of the second
    derivative orthogonal to the first. *)
Theorem C29_curvature : forall d (c : curve_ops R (vec R d)) t d1 d2, c_d1 c t = Ok d1 -> c_d2 c t = Ok d2 ->
  (d1 = p0 -> evaluate_curvature c t = Ok p0) /\
  (d1 <> p0 -> exists k, evaluate_curvature c t = Ok k /\ inner k d1 = 0 /\
     inner k k * inner d1 d1 ^ 3 = inner d1 d1 * inner d2 d2 - inner d1 d2 ^ 2 /\
     (forall i, (i < d)%nat -> coord d i d2 = coord d i (pmul (inner d1 d1) k) + inner d1 d2 / inner d1 d1 * coord d i d1)).
Proof. exact curve_curvature. Qed.
Print Assumptions C29_curvature.

Theorem C29_curvature_2d : forall (c : curve_ops R (vec R 2)) t x' y' x'' y'',
  c_d1 c t = Ok (x', (y', tt)) -> c_d2 c t = Ok (x'', (y'', tt)) -> (x' <> 0 \/ y' <> 0) ->
  exists k, evaluate_curvature c t = Ok k /\ inner k (x', (y', tt)) = 0 /\
    edist k p0 = Rabs (x' * y'' - y' * x'') / sqrt (x' ^ 2 + y' ^ 2) ^ 3.
Proof. exact curve_curvature_2d. Qed.
Print Assumptions C29_curvature_2d.

(** With the identity |a|^2|b|^2 - (a.b)^2 = |a x b|^2 this is |c' x c''|/|c'|^3 in space. *)
Theorem C29_cross_3d : forall a b : vec R 3, inner a a * inner b b - inner a b ^ 2 =
  (coord 3 1 a * coord 3 2 b - coord 3 2 a * coord 3 1 b) ^ 2 +
  (coord 3 2 a * coord 3 0 b - coord 3 0 a * coord 3 2 b) ^ 2 +
  (coord 3 0 a * coord 3 1 b - coord 3 1 a * coord 3 0 b) ^ 2.
Proof. exact inner_cross3. Qed.
Print Assumptions C29_cross_3d.

(** Another parametrisation c'(s) = c(g(s)) has the derivatives g' d1 and g'^2 d2 + g'' d1. *)
Theorem C29_curvature_speed : forall d (c c' : curve_ops R (vec R d)) t t' d1 d2 a b, a <> 0 ->
  c_d1 c t = Ok d1 -> c_d2 c t = Ok d2 ->
  c_d1 c' t' = Ok (pmul a d1) -> c_d2 c' t' = Ok (padd (pmul (a * a) d2) (pmul b d1)) ->
  evaluate_curvature c' t' = evaluate_curvature c t.
Proof. exact curve_curvature_speed. Qed.
Print Assumptions C29_curvature_speed.

Example C29_hyp : c_d1 parabola 3 = Ok (1, (2 * 3, tt)) /\ c_d2 parabola 3 = Ok (0, (2, tt)) /\ (1 <> 0 \/ 2 * 3 <> 0).
Proof. split; [reflexivity|]. split; [reflexivity|]. left. lra. Qed.
(** At the vertex the curvature of y = x^2 is 2 upwards. *)
Example C29_run : evaluate_curvature parabola_q 0%Q = Ok (0, (2, tt))%Q.
Proof. vm_compute. reflexivity. Qed.

(** C43: clip_periodic_parameter. *)
Theorem C43_clip : forall t t_min t_max period, 0 < period -> t_min <= t_max ->
  exists r, clip_periodic_parameter t t_min t_max period = Ok r /\ t_min <= r <= t_max /\
    ((exists k : Z, t_min <= t + IZR k * period <= t_max) -> exists k : Z, r = t + IZR k * period) /\
    (exists k : Z, forall x (j : Z), t_min <= x <= t_max ->
       Rabs (r - (t + IZR k * period)) <= Rabs (x - (t + IZR j * period))).
Proof. exact patch_clip. Qed.
Print Assumptions C43_clip.

Example C43_run : clip_periodic_parameter (15 # 2)%Q 0%Q 2%Q 3%Q = Ok (3 # 2)%Q /\ clip_periodic_parameter (- (1 # 4))%Q 0%Q 2%Q 3%Q = Ok 0%Q /\
  clip_periodic_parameter (9 # 4)%Q 0%Q 2%Q 3%Q = Ok 2%Q.
Proof. split; [vm_compute; reflexivity|]. split; vm_compute; reflexivity. Qed.

(** C38, curves.  The hypothesis on the squared distances says that they do not overflow. *)
Theorem C38_curve_range_partial : forall d (c : curve_ops R (vec R d)) p n lower upper level r, lower <= upper ->
  (forall x q, lower <= x <= upper -> c_eval c x = Ok q -> edist p q ^ 2 < IZR ((2 ^ 53 - 1) * 2 ^ 971)) ->
  approximate_inverse_evaluate c p n lower upper level = Ok r -> lower <= r <= upper.
Proof. exact curve_inverse_range. Qed.
Print Assumptions C38_curve_range_partial.

Example C38_curve_hyp : forall x q, 0 <= x <= 1 -> c_eval parabola x = Ok q -> edist ((1/2, (1/4, tt)) : vec R 2) q ^ 2 < IZR ((2 ^ 53 - 1) * 2 ^ 971).
Proof.
  intros x q Hx E. apply (f_equal (fun y : res (vec R 2) => match y with Ok z => z | _ => p0 end)) in E. cbn [c_eval parabola] in E. subst q.
  rewrite <- sqnorm_edist. apply Rlt_trans with 4; [|apply IZR_lt; vm_compute; reflexivity].
  match goal with |- ?a < 4 => change a with ((1/2 - x) * (1/2 - x) + ((1/4 - x * x) * (1/4 - x * x) + 0)) end.
  assert (0 <= x * x <= 1) by nra. set (y := x * x) in *. assert ((1/2 - x) * (1/2 - x) <= 1) by nra. assert ((1/4 - y) * (1/4 - y) <= 1) by nra. lra.
Qed.
Example C38_curve_run : approximate_inverse_evaluate parabola_q ((1#2), ((1#4), tt))%Q 4 0%Q 1%Q 0 = Ok (1#2)%Q.
Proof. vm_compute. reflexivity. Qed.

(** Without it the range is left: the search starts at 0.0 instead of a value of the range. *)
Theorem C38_curve_range_refuted : exists (c : curve_ops R (vec R 1)) p n lower upper r,
  lower < upper /\ (forall x, exists q, c_eval c x = Ok q) /\
  approximate_inverse_evaluate c p n lower upper 0 = Ok r /\ ~ (lower <= r <= upper).
Proof. exact curve_range_refuted. Qed.
Print Assumptions C38_curve_range_refuted.

(** B-spline curves (any virtual functions [ops]; the knots guide the search). *)
Theorem C38_bspline_range_partial : forall d (b : bspline R (vec R d)) (ops : curve_ops R (vec R d)) p level,
  valid_bspline (bs_pts b) (bs_knots b) ->
  forall lower upper r, lower < upper ->
  (bs_periodic b = false -> lower_of (bs_pts b) (bs_knots b) <= lower /\ upper <= upper_of (bs_pts b) (bs_knots b)) ->
  (forall x q, lower <= x <= upper -> c_eval ops x = Ok q -> edist p q ^ 2 < IZR ((2 ^ 53 - 1) * 2 ^ 971)) ->
  bs_approx_inverse b ops p lower upper level = Ok r -> lower <= r <= upper.
Proof. exact bspline_inverse_range. Qed.
Print Assumptions C38_bspline_range_partial.

(** For a range of a single parameter the result is 0.0, whatever the range, when the query is the point of
    parameter 0. *)
Theorem C38_bspline_point_range : forall d (b : bspline R (vec R d)) t e d1 d2,
  valid_bspline (bs_pts b) (bs_knots b) -> bs_periodic b = false ->
  bs_evaluate b 0 = Ok e -> bs_evaluate_derivative b 0 = Ok d1 -> bs_evaluate_2nd_derivative b 0 = Ok d2 ->
  bs_approx_inverse b (bs_ops b (lower_of (bs_pts b) (bs_knots b)) (upper_of (bs_pts b) (bs_knots b))) e t t 0%nat = Ok 0.
Proof. exact @bspline_inverse_point. Qed.
Print Assumptions C38_bspline_point_range.

Example C38_bspline_hyp : valid_bspline (bs_pts ex_c) (bs_knots ex_c) /\ bs_periodic ex_c = false /\
  lower_of (bs_pts ex_c) (bs_knots ex_c) <= 1/2 /\ 7/2 <= upper_of (bs_pts ex_c) (bs_knots ex_c).
Proof. split; [exact ex_valid|]. split; [reflexivity|]. destruct ex_domain as [-> ->]. lra. Qed.
Example C38_bspline_run : exists x y, bs_approx_inverse exq_c (bs_ops exq_c 0%Q 4%Q) (3, (1, tt))%Q 1%Q 2%Q 0%nat = Ok x /\
  bs_evaluate exq_c 1%Q = Ok y /\ (1 <= x)%Q /\ (x <= 2)%Q.
Proof. eexists; eexists. split; [vm_compute; reflexivity|]. split; [vm_compute; reflexivity|]. split; vm_compute; discriminate. Qed.

(** C38, patches: with or without an initial guess. *)
Theorem C38_patch_guess : forall d (s : patch_ops R (vec R d)) p u v a b c e n tol r f, a <= b -> c <= e ->
  patch_inverse_guess s p u v a b c e n tol = Ok (r, f) -> (a <= fst r <= b) /\ (c <= snd r <= e).
Proof. exact patch_guess_range. Qed.
Print Assumptions C38_patch_guess.

(** The assertions after the iteration cannot fail. *)
Theorem C38_patch_guess_asserts : forall d (s : patch_ops R (vec R d)) p u v a b c e n tol r, a <= u <= b -> c <= v <= e ->
  patch_newton_raphson s p (u, v) n tol a b c e = Ok r ->
  patch_inverse_guess s p u v a b c e n tol = Ok r.
Proof. exact patch_guess_newton_in. Qed.
Print Assumptions C38_patch_guess_asserts.

Theorem C38_patch : forall d (s : patch_ops R (vec R d)) p nu nv a b c e r f, a <= b -> c <= e ->
  patch_inverse_evaluate s p nu nv a b c e = Ok (r, f) -> (a <= fst r <= b) /\ (c <= snd r <= e).
Proof. exact patch_inverse_range. Qed.
Print Assumptions C38_patch.

Theorem C38_patch_approx : forall d (s : patch_ops R (vec R d)) p nu nv a b c e level r, (0 < nu)%Z -> (0 < nv)%Z -> a <= b -> c <= e ->
  patch_approx_inverse s p nu nv a b c e level = Ok r -> (a <= fst r <= b) /\ (c <= snd r <= e).
Proof. exact patch_approx_range. Qed.
Print Assumptions C38_patch_approx.

(** The override for Bezier patches (bisection by control points). *)
Theorem C38_bezier_patch_approx : forall d p nsu nsv level, (0 < nsu)%Z -> (0 < nsv)%Z ->
  forall (s : bpatch (vec R d)) a b c e r, a <= b -> c <= e ->
  bp_approx_inverse s p nsu nsv a b c e level = Ok r -> (a <= fst r <= b) /\ (c <= snd r <= e).
Proof. exact bpatch_inverse_range. Qed.
Print Assumptions C38_bezier_patch_approx.

(** A bicubic patch: the graph x = u, y = v, z = control values, fixed degrees; the bisection gives a parameter near
    the query point. *)
Definition exq_bicubic : bpatch (vec Q 3) :=
  bp_set_grid (bp_new 3 3)
    (map (fun ij : Z * Z => let '(i, j) := ij in (i # 3, (j # 3, (((i * j) # 1), tt)))%Q)
       [(0,0);(0,1);(0,2);(0,3);(1,0);(1,1);(1,2);(1,3);(2,0);(2,1);(2,2);(2,3);(3,0);(3,1);(3,2);(3,3)]%Z).
Example C38_bezier_patch_run : exists uv, bp_approx_inverse exq_bicubic ((1#4), ((1#2), (1, tt)))%Q 8 8 0%Q 1%Q 0%Q 1%Q 4%nat = Ok uv /\
  (0 <= fst uv)%Q /\ (fst uv <= 1)%Q /\ (0 <= snd uv)%Q /\ (snd uv <= 1)%Q.
Proof.
  eexists. split; [vm_compute; reflexivity|]. cbn [fst snd]. split; [|split; [|split]]; vm_compute; discriminate.
Qed.

(** C69: the flag returned by inverse_evaluate of a patch.  Claimed: true only if the iteration has converged (the
    distance or the gradient is below the tolerance).  It is also true when the iterations are used up. *)
Theorem C69_flag_refuted : exists (s : patch_ops R (vec R 2)) (p : vec R 2) uv r e su sv,
  patch_inverse_guess s p (fst uv) (snd uv) 0 1 0 1 20 (smul seps (sofZ 100)) = Ok (r, true) /\
  s_eval s (fst r) (snd r) = Ok e /\ s_du s (fst r) (snd r) = Ok su /\ s_dv s (fst r) (snd r) = Ok sv /\
  let tol := 100 * / IZR (2 ^ 52) in
  0 < fst r < 1 /\ 1000000 * tol < edist e p /\ 1000 * tol < Rabs (inner su (psub e p)).
Proof. exact newton_flag_refuted. Qed.
Print Assumptions C69_flag_refuted.

(** What holds: with the flag false the result is at least as near as the guess. *)
Theorem C69_false_not_worse_partial : forall d (s : patch_ops R (vec R d)) p u v a b c e n tol r, a <= u <= b -> c <= v <= e ->
  patch_inverse_guess s p u v a b c e n tol = Ok (r, false) ->
  exists e0 er, s_eval s u v = Ok e0 /\ s_eval s (fst r) (snd r) = Ok er /\ edist er p <= edist e0 p.
Proof. exact patch_guess_not_worse. Qed.
Print Assumptions C69_false_not_worse_partial.

(** The plane patch S(u,v) = (u, 0) has a singular matrix everywhere: the guess is returned with the flag false. *)
Definition flat_q : patch_ops Q (vec Q 2) :=
  {| s_ulo := 0%Q; s_uhi := 1%Q; s_vlo := 0%Q; s_vhi := 1%Q;
     s_eval := fun u v => Ok ((u, (0, tt))%Q : vec Q 2); s_du := fun u v => Ok ((1, (0, tt))%Q : vec Q 2);
     s_dv := fun u v => Ok p0; s_duu := fun u v => Ok p0; s_dvv := fun u v => Ok p0; s_duv := fun u v => Ok p0 |}.
Example C69_run : patch_inverse_guess flat_q (0, (0, tt))%Q (1#2)%Q (1#3)%Q 0%Q 1%Q 0%Q 1%Q 20 (seps * (100#1))%Q = Ok (((1#2), (1#3))%Q, false).
Proof. vm_compute. reflexivity. Qed.
