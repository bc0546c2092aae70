(** Property theorems: circle, ellipse, plane, cylinder, cone, sphere, torus (C40, C41, C81, C82).
    Statements only; the proofs are in CircleThms.v, EllipseThms.v, QuadricThms.v and PrimitiveRefute.v.
    [fuel] bounds the loop "while (t < lower) t += 2 * M_PI": the theorems hold for every fuel that is large enough. *)
From Coq Require Import Reals Lra Lia ZArith.
From Verif Require Import Monad MonadFacts Scalar ScalarFacts Spec SpecGeom SpecPatch SpecPrimitive ModelCurve ModelPrimitive
  TrigFacts PrimitiveFacts CircleThms EllipseThms QuadricThms PrimitiveRefute.
Local Open Scope R_scope.

(** * C40: circle *)
Theorem C40_circle_points : forall d (c : circle R (vec R d)) t, orthonormal2 (ci_x c) (ci_y c) -> exists q, ci_evaluate c t = Ok q /\
  edist q (ci_center c) = Rabs (ci_radius c) /\ in_plane (ci_center c) (ci_x c) (ci_y c) q /\
  along (ci_center c) (ci_x c) q = ci_radius c * cos t /\ along (ci_center c) (ci_y c) q = ci_radius c * sin t.
Proof. exact circle_points. Qed.
Print Assumptions C40_circle_points.
Theorem C40_circle_derivatives : forall d (c : circle R (vec R d)), exists f f1 f2,
  (forall t, ci_evaluate c t = Ok (f t) /\ ci_evaluate_derivative c t = Ok (f1 t) /\ ci_evaluate_2nd_derivative c t = Ok (f2 t)) /\
  two_derivatives f f1 f2.
Proof. exact circle_derivatives. Qed.
Print Assumptions C40_circle_derivatives.
(** The parameter found is in the range asked for ... *)
Theorem C40_circle_range : forall d (c : circle R (vec R d)) p lo hi, lo <= hi -> exists n, forall fuel, (n <= fuel)%nat ->
  exists t, ci_approximate_inverse_evaluate fuel c p lo hi = Ok t /\ lo <= t <= hi.
Proof. exact circle_range. Qed.
Print Assumptions C40_circle_range.
(** ... and gives the nearest point of the arc, if the range does not start below -pi. *)
Theorem C40_circle_nearest : forall d (c : circle R (vec R d)) p lo hi, orthonormal2 (ci_x c) (ci_y c) -> 0 <= ci_radius c -> - PI <= lo -> lo <= hi ->
  exists n, forall fuel, (n <= fuel)%nat -> exists t q, ci_approximate_inverse_evaluate fuel c p lo hi = Ok t /\ lo <= t <= hi /\
    ci_evaluate c t = Ok q /\ forall x qx, lo <= x <= hi -> ci_evaluate c x = Ok qx -> edist p q <= edist p qx.
Proof. exact circle_nearest. Qed.
Print Assumptions C40_circle_nearest.
Theorem C40_circle_inverse_partial : forall d (c : circle R (vec R d)) lo hi s q, orthonormal2 (ci_x c) (ci_y c) -> 0 <= ci_radius c ->
  - PI <= lo -> lo <= s <= hi -> ci_evaluate c s = Ok q ->
  exists n, forall fuel, (n <= fuel)%nat -> exists t, ci_approximate_inverse_evaluate fuel c q lo hi = Ok t /\ lo <= t <= hi /\ ci_evaluate c t = Ok q.
Proof. exact circle_round_trip. Qed.
Print Assumptions C40_circle_inverse_partial.
(** Without that bound on the range the point is not found (the loop only ever adds turns). *)
Theorem C40_circle_inverse_refuted : exists (c : circle R (vec R 2)) s q, ci_initialize c = Ok c /\ 0 < ci_radius c /\ orthonormal2 (ci_x c) (ci_y c) /\
  ci_lower c <= s <= ci_upper c /\ ci_evaluate c s = Ok q /\
  forall fuel, exists t q', ci_inverse_evaluate fuel c q = Ok t /\ ci_evaluate c t = Ok q' /\ q' <> q.
Proof. exact circle_refuted. Qed.
Print Assumptions C40_circle_inverse_refuted.

Example C40_circle_hyp : let c := {| ci_center := pt 3 4; ci_x := pt 1 0; ci_y := pt 0 1; ci_radius := 2; ci_lower := - (1 / 2); ci_upper := 2; ci_periodic := false |} in
  orthonormal2 (ci_x c) (ci_y c) /\ 0 <= ci_radius c /\ - PI <= ci_lower c /\ ci_lower c <= 0 <= ci_upper c /\ ci_evaluate c 0 = Ok (pt 5 4).
Proof.
  cbn [ci_x ci_y ci_radius ci_lower ci_upper]. split; [apply std2|]. split; [lra|]. split; [pose proof PI2_1; lra|]. split; [lra|].
  rewrite ci_eval. unfold ci_pt. cbn [ci_center ci_x ci_y ci_radius]. rewrite cos_0, sin_0. f_equal. vext. destruct i as [|[|i]]; cbn; try lia; ring.
Qed.

(** * C40: ellipse *)
Theorem C40_ellipse_points : forall d (c : ellipse R (vec R d)) t, orthonormal2 (el_x c) (el_y c) -> 0 < el_major c -> 0 < el_minor c ->
  exists q, el_evaluate c t = Ok q /\ in_plane (el_center c) (el_x c) (el_y c) q /\
  (along (el_center c) (el_x c) q / el_major c) ^ 2 + (along (el_center c) (el_y c) q / el_minor c) ^ 2 = 1.
Proof. exact ellipse_points. Qed.
Print Assumptions C40_ellipse_points.
Theorem C40_ellipse_derivatives : forall d (c : ellipse R (vec R d)), exists f f1 f2,
  (forall t, el_evaluate c t = Ok (f t) /\ el_evaluate_derivative c t = Ok (f1 t) /\ el_evaluate_2nd_derivative c t = Ok (f2 t)) /\
  two_derivatives f f1 f2.
Proof. exact ellipse_derivatives. Qed.
Print Assumptions C40_ellipse_derivatives.
Theorem C40_ellipse_range : forall d (c : ellipse R (vec R d)) p lo hi fuel t,
  el_approximate_inverse_evaluate fuel c p lo hi = Ok t -> lo <= t <= hi.
Proof. exact ellipse_range. Qed.
Print Assumptions C40_ellipse_range.
(** Partial: equal radii, range starting at 0 or above, curvature above the threshold of the code's assertion. *)
Theorem C40_ellipse_equal_radii_partial : forall d (c : ellipse R (vec R d)) p lo hi, orthonormal2 (el_x c) (el_y c) -> 0 < el_major c -> el_minor c = el_major c ->
  eps10 < / el_major c ^ 2 -> 0 <= lo -> lo <= hi ->
  exists n, forall fuel, (n <= fuel)%nat -> exists t q, el_approximate_inverse_evaluate fuel c p lo hi = Ok t /\ lo <= t <= hi /\
    el_evaluate c t = Ok q /\ forall x qx, lo <= x <= hi -> el_evaluate c x = Ok qx -> edist p q <= edist p qx.
Proof. exact ellipse_equal'. Qed.
Print Assumptions C40_ellipse_equal_radii_partial.
(** Partial: for any radii, the parameter of a point of the first quadrant is a fixed point at which the iteration stops
    (missing: that the iteration reaches it). *)
Theorem C40_ellipse_fixed_point_partial : forall d (c : ellipse R (vec R d)) t q, orthonormal2 (el_x c) (el_y c) -> 0 < el_minor c <= el_major c ->
  eps10 < el_minor c ^ 2 / el_major c ^ 4 -> 0 <= t <= PI / 2 -> el_evaluate c t = Ok q -> el_step c q (el_x c) (el_y c) t = Ok (t, 0).
Proof. exact ellipse_fixed'. Qed.
Print Assumptions C40_ellipse_fixed_point_partial.
(** A range that starts below 0: the candidate is in [0, 2 pi] and is never lowered by a turn. *)
Theorem C40_ellipse_inverse_refuted : exists (c : ellipse R (vec R 2)) s q, el_initialize c = Ok c /\ orthonormal2 (el_x c) (el_y c) /\
  el_lower c <= s <= el_upper c /\ el_evaluate c s = Ok q /\
  forall fuel, exists t q', el_inverse_evaluate fuel c q = Ok t /\ el_evaluate c t = Ok q' /\ q' <> q.
Proof. exact ellipse_refuted. Qed.
Print Assumptions C40_ellipse_inverse_refuted.
(** A large ellipse: inverse evaluation fails the assertion on the curvature at every point of the ellipse. *)
Theorem C40_ellipse_large_refuted : exists c : ellipse R (vec R 2), el_initialize c = Ok c /\ orthonormal2 (el_x c) (el_y c) /\
  forall fuel s q, el_lower c <= s <= el_upper c -> el_evaluate c s = Ok q -> el_inverse_evaluate fuel c q = Undef.
Proof. exact ellipse_large_refuted. Qed.
Print Assumptions C40_ellipse_large_refuted.

Example C40_ellipse_hyp : let c := {| el_center := pt 3 4; el_x := pt 1 0; el_y := pt 0 1; el_major := 2; el_minor := 1; el_lower := 0; el_upper := 3; el_periodic := false |} in
  orthonormal2 (el_x c) (el_y c) /\ 0 < el_minor c <= el_major c /\ eps10 < el_minor c ^ 2 / el_major c ^ 4 /\ eps10 < / el_major c ^ 2 /\ 0 <= el_lower c <= el_upper c.
Proof.
  cbn [el_x el_y el_major el_minor el_lower el_upper]. split; [apply std2|]. pose proof prim_tol_bound. rewrite prim_tol_R in *. unfold eps10. split; [lra|]. split; [lra|]. split; lra.
Qed.

(** * C41: plane *)
Theorem C41_plane_points : forall d (c : plane R (vec R d)) u v, exists q, pl_evaluate c u v = Ok q /\ in_plane (pl_location c) (pl_x c) (pl_y c) q.
Proof. exact plane_points. Qed.
Print Assumptions C41_plane_points.
Theorem C41_plane_derivatives : forall d (c : plane R (vec R d)), accessors_exact (pl_evaluate c) (pl_du c) (pl_dv c) (pl_duu c) (pl_dvv c) (pl_duv c).
Proof. exact plane_is. Qed.
Print Assumptions C41_plane_derivatives.
Theorem C41_plane_inverse : forall d (c : plane R (vec R d)) min_u max_u min_v max_v u v q,
  pl_x c <> p0 -> pl_y c <> p0 -> inner (pl_x c) (pl_y c) = 0 -> min_u <= u <= max_u -> min_v <= v <= max_v -> pl_evaluate c u v = Ok q ->
  pl_inverse_evaluate c q min_u max_u min_v max_v = Ok ((u, v), true).
Proof. exact plane_round_trip. Qed.
Print Assumptions C41_plane_inverse.
Theorem C41_plane_nearest : forall d (c : plane R (vec R d)) p min_u max_u min_v max_v,
  pl_x c <> p0 -> pl_y c <> p0 -> inner (pl_x c) (pl_y c) = 0 -> min_u <= max_u -> min_v <= max_v ->
  exists u v q, pl_inverse_evaluate c p min_u max_u min_v max_v = Ok ((u, v), true) /\ min_u <= u <= max_u /\ min_v <= v <= max_v /\
    pl_evaluate c u v = Ok q /\
    forall x y q', min_u <= x <= max_u -> min_v <= y <= max_v -> pl_evaluate c x y = Ok q' -> edist p q <= edist p q'.
Proof. exact plane_nearest. Qed.
Print Assumptions C41_plane_nearest.
Example C41_plane_hyp : let c := {| pl_location := pt3 1 2 3; pl_x := pt3 2 0 0; pl_y := pt3 0 3 1; pl_bounds := {| b_ulo := 0; b_uhi := 1; b_vlo := 0; b_vhi := 1 |}; pl_periodic_u := false; pl_periodic_v := false |} in
  pl_x c <> p0 /\ pl_y c <> p0 /\ inner (pl_x c) (pl_y c) = 0 /\ pl_evaluate c 1 1 = Ok (pt3 3 5 4).
Proof.
  cbn [pl_x pl_y]. split; [intros E; apply (f_equal fst) in E; cbn in E; lra|]. split; [intros E; apply (f_equal (fun q => fst (snd q))) in E; cbn in E; lra|]. split; [rewrite inner3; ring|].
  unfold pl_evaluate. cbn [pl_location pl_x pl_y]. f_equal. apply vec_ext. intros [|[|[|i]]] Hi; cbn; try lia; ring.
Qed.

(** * C41: cylinder *)
Theorem C41_cylinder_points : forall d (c : rotsurf R (vec R d)), orthonormal3 (rv_x c) (rv_y c) (rv_z c) -> forall u v, exists q, cy_evaluate c u v = Ok q /\
  along (rv_location c) (rv_x c) q ^ 2 + along (rv_location c) (rv_y c) q ^ 2 = rv_r c ^ 2 /\ along (rv_location c) (rv_z c) q = v.
Proof. exact @cylinder_points. Qed.
Print Assumptions C41_cylinder_points.
Theorem C41_cylinder_derivatives : forall d (c : rotsurf R (vec R d)), accessors_exact (cy_evaluate c) (cy_du c) (cy_dv c) (cy_duu c) (cy_dvv c) (cy_duv c).
Proof. exact @cylinder_is. Qed.
Print Assumptions C41_cylinder_derivatives.
Theorem C41_cylinder_inverse : forall d (c : rotsurf R (vec R d)), orthonormal3 (rv_x c) (rv_y c) (rv_z c) ->
  forall min_u max_u min_v max_v u v q, 0 <= rv_r c -> min_u <= u <= max_u -> min_v <= v <= max_v -> cy_evaluate c u v = Ok q ->
  exists u' v', cy_inverse_evaluate c q min_u max_u min_v max_v = Ok ((u', v'), true) /\ min_u <= u' <= max_u /\ min_v <= v' <= max_v /\ cy_evaluate c u' v' = Ok q.
Proof. exact @cylinder_round_trip. Qed.
Print Assumptions C41_cylinder_inverse.
Theorem C41_cylinder_nearest : forall d (c : rotsurf R (vec R d)), orthonormal3 (rv_x c) (rv_y c) (rv_z c) ->
  forall p min_u max_u min_v max_v, 0 <= rv_r c -> min_u <= max_u -> min_v <= max_v ->
  exists u v q, cy_inverse_evaluate c p min_u max_u min_v max_v = Ok ((u, v), true) /\ min_u <= u <= max_u /\ min_v <= v <= max_v /\
    cy_evaluate c u v = Ok q /\
    forall x y q', min_u <= x <= max_u -> min_v <= y <= max_v -> cy_evaluate c x y = Ok q' -> edist p q <= edist p q'.
Proof. exact @cylinder_nearest. Qed.
Print Assumptions C41_cylinder_nearest.

(** * C41: cone.  The inverse theorems are about the part of the cone where the signed radius R + v sin a is not negative. *)
Theorem C41_cone_points : forall d (c : rotsurf R (vec R d)), orthonormal3 (rv_x c) (rv_y c) (rv_z c) -> forall u v, exists q, co_evaluate c u v = Ok q /\
  along (rv_location c) (rv_x c) q ^ 2 + along (rv_location c) (rv_y c) q ^ 2 = (rv_r c + v * sin (rv_a c)) ^ 2 /\
  along (rv_location c) (rv_z c) q = v * cos (rv_a c).
Proof. exact @cone_points. Qed.
Print Assumptions C41_cone_points.
Theorem C41_cone_derivatives : forall d (c : rotsurf R (vec R d)), accessors_exact (co_evaluate c) (co_du c) (co_dv c) (co_duu c) (co_dvv c) (co_duv c).
Proof. exact @cone_is. Qed.
Print Assumptions C41_cone_derivatives.
Theorem C41_cone_inverse_partial : forall d (c : rotsurf R (vec R d)), orthonormal3 (rv_x c) (rv_y c) (rv_z c) ->
  forall min_u max_u min_v max_v u v q, min_u <= u <= max_u -> min_v <= v <= max_v -> 0 <= rv_r c + v * sin (rv_a c) -> co_evaluate c u v = Ok q ->
  exists u' v', co_inverse_evaluate c q min_u max_u min_v max_v = Ok ((u', v'), true) /\ min_u <= u' <= max_u /\ min_v <= v' <= max_v /\ co_evaluate c u' v' = Ok q.
Proof. exact @cone_round_trip. Qed.
Print Assumptions C41_cone_inverse_partial.
Theorem C41_cone_nearest : forall d (c : rotsurf R (vec R d)), orthonormal3 (rv_x c) (rv_y c) (rv_z c) ->
  forall p min_u max_u min_v max_v, min_u + 2 * PI <= max_u -> min_v <= max_v -> (forall v, min_v <= v <= max_v -> 0 <= rv_r c + v * sin (rv_a c)) ->
  exists u v q, co_inverse_evaluate c p min_u max_u min_v max_v = Ok ((u, v), true) /\ min_u <= u <= max_u /\ min_v <= v <= max_v /\
    co_evaluate c u v = Ok q /\
    forall x y q', min_u <= x <= max_u -> min_v <= y <= max_v -> co_evaluate c x y = Ok q' -> edist p q <= edist p q'.
Proof. exact @cone_nearest. Qed.
Print Assumptions C41_cone_nearest.
(** Beyond the apex a point of the cone is not found, although the whole circle of parameters is allowed. *)
Theorem C41_cone_inverse_refuted : exists (c : rotsurf R (vec R 3)) u v q, cy_initialize c = Ok c /\ orthonormal3 (rv_x c) (rv_y c) (rv_z c) /\ 0 < rv_r c /\ 0 < rv_a c < PI / 2 /\
  b_ulo (rv_bounds c) <= u <= b_uhi (rv_bounds c) /\ b_vlo (rv_bounds c) <= v <= b_vhi (rv_bounds c) /\ b_uhi (rv_bounds c) = b_ulo (rv_bounds c) + 2 * PI /\
  co_evaluate c u v = Ok q /\
  exists u' v' q', co_inverse_evaluate c q (b_ulo (rv_bounds c)) (b_uhi (rv_bounds c)) (b_vlo (rv_bounds c)) (b_vhi (rv_bounds c)) = Ok ((u', v'), true) /\
    co_evaluate c u' v' = Ok q' /\ q' <> q.
Proof. exact cone_refuted. Qed.
Print Assumptions C41_cone_inverse_refuted.

(** * C41: sphere *)
Theorem C41_sphere_points : forall d (c : rotsurf R (vec R d)), orthonormal3 (rv_x c) (rv_y c) (rv_z c) -> forall u v, exists q, sp_evaluate c u v = Ok q /\
  along (rv_location c) (rv_x c) q ^ 2 + along (rv_location c) (rv_y c) q ^ 2 + along (rv_location c) (rv_z c) q ^ 2 = rv_r c ^ 2 /\
  edist q (rv_location c) = Rabs (rv_r c).
Proof. exact @sphere_points. Qed.
Print Assumptions C41_sphere_points.
Theorem C41_sphere_derivatives : forall d (c : rotsurf R (vec R d)), accessors_exact (sp_evaluate c) (sp_du c) (sp_dv c) (sp_duu c) (sp_dvv c) (sp_duv c).
Proof. exact @sphere_is. Qed.
Print Assumptions C41_sphere_derivatives.
Theorem C41_sphere_inverse : forall d (c : rotsurf R (vec R d)), orthonormal3 (rv_x c) (rv_y c) (rv_z c) ->
  forall min_u max_u min_v max_v u v q, 0 < rv_r c -> min_u <= u <= max_u -> - (PI / 2) <= v <= PI / 2 -> min_v <= v <= max_v -> sp_evaluate c u v = Ok q ->
  exists u' v', sp_inverse_evaluate c q min_u max_u min_v max_v = Ok ((u', v'), true) /\ min_u <= u' <= max_u /\ min_v <= v' <= max_v /\ sp_evaluate c u' v' = Ok q.
Proof. exact @sphere_round_trip. Qed.
Print Assumptions C41_sphere_inverse.
Theorem C41_sphere_nearest : forall d (c : rotsurf R (vec R d)), orthonormal3 (rv_x c) (rv_y c) (rv_z c) ->
  forall p min_u max_u min_v max_v, 0 <= rv_r c -> min_u + 2 * PI <= max_u -> - (PI / 2) <= min_v -> min_v <= max_v -> max_v <= PI / 2 ->
  exists u v q, sp_inverse_evaluate c p min_u max_u min_v max_v = Ok ((u, v), true) /\ min_u <= u <= max_u /\ min_v <= v <= max_v /\
    sp_evaluate c u v = Ok q /\
    forall x y q', min_u <= x <= max_u -> min_v <= y <= max_v -> sp_evaluate c x y = Ok q' -> edist p q <= edist p q'.
Proof. exact @sphere_nearest. Qed.
Print Assumptions C41_sphere_nearest.

(** * C41: torus.  [rv_r] is the major and [rv_a] the minor radius. *)
Theorem C41_torus_points : forall d (c : rotsurf R (vec R d)), orthonormal3 (rv_x c) (rv_y c) (rv_z c) -> forall u v, exists q, to_evaluate c u v = Ok q /\
  (along (rv_location c) (rv_x c) q ^ 2 + along (rv_location c) (rv_y c) q ^ 2 + along (rv_location c) (rv_z c) q ^ 2 + rv_r c ^ 2 - rv_a c ^ 2) ^ 2
    = 4 * rv_r c ^ 2 * (along (rv_location c) (rv_x c) q ^ 2 + along (rv_location c) (rv_y c) q ^ 2).
Proof. exact @torus_points. Qed.
Print Assumptions C41_torus_points.
Theorem C41_torus_derivatives : forall d (c : rotsurf R (vec R d)), accessors_exact (to_evaluate c) (to_du c) (to_dv c) (to_duu c) (to_dvv c) (to_duv c).
Proof. exact @torus_is. Qed.
Print Assumptions C41_torus_derivatives.
Theorem C41_torus_inverse_partial : forall d (c : rotsurf R (vec R d)), orthonormal3 (rv_x c) (rv_y c) (rv_z c) ->
  forall min_u max_u min_v max_v u v q, 0 < rv_a c <= rv_r c -> min_u <= u <= max_u -> min_v <= v <= max_v -> to_evaluate c u v = Ok q ->
  exists u' v', to_inverse_evaluate c q min_u max_u min_v max_v = Ok ((u', v'), true) /\ min_u <= u' <= max_u /\ min_v <= v' <= max_v /\ to_evaluate c u' v' = Ok q.
Proof. exact @torus_round_trip. Qed.
Print Assumptions C41_torus_inverse_partial.
Theorem C41_torus_nearest : forall d (c : rotsurf R (vec R d)), orthonormal3 (rv_x c) (rv_y c) (rv_z c) ->
  forall p min_u max_u min_v max_v, 0 <= rv_a c <= rv_r c -> min_u + 2 * PI <= max_u -> min_v <= max_v ->
  exists u v q, to_inverse_evaluate c p min_u max_u min_v max_v = Ok ((u, v), true) /\ min_u <= u <= max_u /\ min_v <= v <= max_v /\
    to_evaluate c u v = Ok q /\
    forall x y q', min_u <= x <= max_u -> min_v <= y <= max_v -> to_evaluate c x y = Ok q' -> edist p q <= edist p q'.
Proof. exact @torus_nearest. Qed.
Print Assumptions C41_torus_nearest.
(** A torus whose minor radius exceeds the major radius: a point of the inner part is not found. *)
Theorem C41_torus_inverse_refuted : exists (c : rotsurf R (vec R 3)) u v q, to_initialize c = Ok c /\ orthonormal3 (rv_x c) (rv_y c) (rv_z c) /\ 0 < rv_r c /\ 0 < rv_a c /\
  b_ulo (rv_bounds c) <= u <= b_uhi (rv_bounds c) /\ b_vlo (rv_bounds c) <= v <= b_vhi (rv_bounds c) /\
  b_uhi (rv_bounds c) = b_ulo (rv_bounds c) + 2 * PI /\ b_vhi (rv_bounds c) = b_vlo (rv_bounds c) + 2 * PI /\ to_evaluate c u v = Ok q /\
  exists u' v' q', to_inverse_evaluate c q (b_ulo (rv_bounds c)) (b_uhi (rv_bounds c)) (b_vlo (rv_bounds c)) (b_vhi (rv_bounds c)) = Ok ((u', v'), true) /\
    to_evaluate c u' v' = Ok q' /\ q' <> q.
Proof. exact torus_refuted. Qed.
Print Assumptions C41_torus_inverse_refuted.

Example C41_hyp : let c := std_surf 2 1 0 (2 * PI) 0 1 true false in
  orthonormal3 (rv_x c) (rv_y c) (rv_z c) /\ 0 < rv_r c /\ 0 < rv_a c <= rv_r c /\ b_ulo (rv_bounds c) + 2 * PI <= b_uhi (rv_bounds c) /\
  - (PI / 2) <= b_vlo (rv_bounds c) /\ b_vlo (rv_bounds c) <= b_vhi (rv_bounds c) /\ b_vhi (rv_bounds c) <= PI / 2 /\
  (forall v, 0 <= v <= 1 -> 0 <= rv_r c + v * sin (rv_a c)).
Proof.
  cbn [std_surf rv_x rv_y rv_z rv_r rv_a rv_bounds b_ulo b_uhi b_vlo b_vhi]. pose proof PI2_1. split; [apply std3|]. repeat (split; [lra|]).
  intros v Hv. pose proof (SIN_bound 1). assert (v * -1 <= v * sin 1) by (apply Rmult_le_compat_l; lra). lra.
Qed.

(** * C81: frames and ranges that initialize accepts *)
Theorem C81_plane_refuted : exists (c : plane R (vec R 2)) u v q, pl_initialize c = Ok c /\
  b_ulo (pl_bounds c) <= u <= b_uhi (pl_bounds c) /\ b_vlo (pl_bounds c) <= v <= b_vhi (pl_bounds c) /\ pl_evaluate c u v = Ok q /\
  exists u' v' q', pl_inverse_evaluate c q (b_ulo (pl_bounds c)) (b_uhi (pl_bounds c)) (b_vlo (pl_bounds c)) (b_vhi (pl_bounds c)) = Ok ((u', v'), true) /\
    pl_evaluate c u' v' = Ok q' /\ q' <> q.
Proof. exact plane_refuted. Qed.
Print Assumptions C81_plane_refuted.
Theorem C81_ellipse_refuted : exists c : ellipse R (vec R 2), el_initialize c = Ok c /\ inner (el_x c) (el_y c) = 0 /\
  forall fuel s q, el_lower c <= s <= el_upper c -> el_evaluate c s = Ok q -> el_inverse_evaluate fuel c q = NonFinite.
Proof. exact ellipse_frame_refuted. Qed.
Print Assumptions C81_ellipse_refuted.
Theorem C81_sphere_refuted : exists (c : rotsurf R (vec R 3)) u v q, (exists b, sp_initialize c = Ok (rv_with_periodic c b false)) /\ orthonormal3 (rv_x c) (rv_y c) (rv_z c) /\ 0 < rv_r c /\
  b_ulo (rv_bounds c) <= u <= b_uhi (rv_bounds c) /\ b_vlo (rv_bounds c) <= v <= b_vhi (rv_bounds c) /\ sp_evaluate c u v = Ok q /\
  exists u' v' q', sp_inverse_evaluate c q (b_ulo (rv_bounds c)) (b_uhi (rv_bounds c)) (b_vlo (rv_bounds c)) (b_vhi (rv_bounds c)) = Ok ((u', v'), true) /\
    sp_evaluate c u' v' = Ok q' /\ q' <> q.
Proof. exact sphere_range_refuted. Qed.
Print Assumptions C81_sphere_refuted.

(** * C82: periodic flags *)
Theorem C82_circle : forall d (c : circle R (vec R d)), orthonormal2 (ci_x c) (ci_y c) -> ci_lower c <= ci_upper c ->
  exists c', ci_initialize c = Ok c' /\ ci_center c' = ci_center c /\ ci_x c' = ci_x c /\ ci_y c' = ci_y c /\ ci_radius c' = ci_radius c /\
    ci_lower c' = ci_lower c /\ ci_upper c' = ci_upper c /\ (ci_periodic c' = true <-> whole_turns eps10 (ci_lower c) (ci_upper c)).
Proof. exact circle_flag'. Qed.
Print Assumptions C82_circle.
Theorem C82_ellipse : forall d (c : ellipse R (vec R d)), inner (el_x c) (el_y c) = 0 -> 0 < el_minor c <= el_major c -> el_lower c <= el_upper c ->
  exists c', el_initialize c = Ok c' /\ el_center c' = el_center c /\ el_x c' = el_x c /\ el_y c' = el_y c /\ el_major c' = el_major c /\ el_minor c' = el_minor c /\
    el_lower c' = el_lower c /\ el_upper c' = el_upper c /\ (el_periodic c' = true <-> whole_turns eps10 (el_lower c) (el_upper c)).
Proof. exact ellipse_flag'. Qed.
Print Assumptions C82_ellipse.
Theorem C82_surfaces : forall d (c : rotsurf R (vec R d)), orthonormal3 (rv_x c) (rv_y c) (rv_z c) ->
  b_ulo (rv_bounds c) <= b_uhi (rv_bounds c) -> b_vlo (rv_bounds c) <= b_vhi (rv_bounds c) ->
  exists bu bv, (bu = true <-> whole_turns eps10 (b_ulo (rv_bounds c)) (b_uhi (rv_bounds c))) /\ (bv = true <-> whole_turns eps10 (b_vlo (rv_bounds c)) (b_vhi (rv_bounds c))) /\
    cy_initialize c = Ok (rv_with_periodic c bu false) /\ to_initialize c = Ok (rv_with_periodic c bu bv) /\
    exists bs, sp_initialize c = Ok (rv_with_periodic c bu bs) /\
      (bs = true <-> Rabs (b_vlo (rv_bounds c) + PI / 2) < eps10 /\ Rabs (b_vhi (rv_bounds c) - PI / 2) < eps10).
Proof. exact rot_flags'. Qed.
Print Assumptions C82_surfaces.
(** A range of no length counts as a whole number (none) of turns. *)
Theorem C82_degenerate_refuted : exists c : circle R (vec R 2), ci_initialize c = Ok c /\ ci_lower c = ci_upper c /\ ci_periodic c = true.
Proof. exact circle_degenerate_flag. Qed.
Print Assumptions C82_degenerate_refuted.
(** The sphere from pole to pole is flagged periodic in v, although the two ends of every v line are different points. *)
Theorem C82_sphere_refuted : exists c : rotsurf R (vec R 3), sp_initialize c = Ok c /\ orthonormal3 (rv_x c) (rv_y c) (rv_z c) /\ 0 < rv_r c /\ rv_periodic_v c = true /\
  forall u q q', sp_evaluate c u (b_vlo (rv_bounds c)) = Ok q -> sp_evaluate c u (b_vhi (rv_bounds c)) = Ok q' -> q <> q'.
Proof. exact sphere_flag_refuted. Qed.
Print Assumptions C82_sphere_refuted.
Example C82_hyp : let c := std_surf 2 1 0 (2 * PI) 0 1 true false in orthonormal3 (rv_x c) (rv_y c) (rv_z c) /\ whole_turns eps10 (b_ulo (rv_bounds c)) (b_uhi (rv_bounds c)).
Proof.
  split; [apply std3|]. exists 1%Z. cbn [std_surf rv_bounds b_ulo b_uhi]. replace (2 * PI - 0 - 2 * PI * 1) with 0 by ring. rewrite Rabs_R0. unfold eps10. rewrite <- prim_tol_R. apply prim_tol_bound.
Qed.
