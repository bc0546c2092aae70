(** Property theorems: extrusion, revolution and offset patches (C42, C83).
    Statements only; the proofs are in SweepThms.v and SweepInverse.v.
    [profile_is pr g g1 g2]: the profile curve's accessors return g, g1, g2 at every parameter.
    [inverse_nearest pr g lo hi]: its approximate inverse evaluation returns a nearest point of the range.
    [base_is b f fu fv fuu fvv fuv]: the base patch's accessors return these functions. *)
From Coq Require Import Reals Lra Lia ZArith.
From Verif Require Import Monad MonadFacts Scalar ScalarFacts Spec SpecGeom SpecPatch SpecPrimitive ModelCurve ModelLine ModelPatchBase ModelPrimitive ModelSweep
  LineThms TrigFacts PrimitiveFacts CircleThms QuadricThms PrimitiveRefute SweepThms SweepInverse.
Local Open Scope R_scope.

(** * C42: extrusion *)
Theorem C42_extrusion_derivatives : forall d (c : extrusion R (vec R d)) pr g g1 g2, ex_profile c = Some pr -> profile_is pr g g1 g2 ->
  exists f fu fv fuu fvv fuv,
    (forall u v, ex_evaluate c u v = Ok (f u v) /\ ex_du c u v = Ok (fu u v) /\ ex_dv c u v = Ok (fv u v) /\
      ex_duu c u v = Ok (fuu u v) /\ ex_dvv c u v = Ok (fvv u v) /\ ex_duv c u v = Ok (fuv u v)) /\
    (forall u v, f u v = padd (padd (ex_location c) (g u)) (pmul v (ex_direction c))) /\
    (forall u v, vderiv g u (g1 u) -> vderiv g1 u (g2 u) -> partials f fu fv fuu fvv fuv u v).
Proof. exact extrusion_derivatives. Qed.
Print Assumptions C42_extrusion_derivatives.
(** The full claim: every point of the patch is found again.  It holds for a profile in a plane orthogonal to the direction, and a location orthogonal to the direction. *)
Theorem C42_extrusion_inverse_partial : forall d (c : extrusion R (vec R d)) pr g g1 g2, ex_profile c = Some pr -> profile_is pr g g1 g2 ->
  inner (ex_direction c) (ex_direction c) = 1 -> forall lo hi k us vs, inverse_nearest pr g lo hi -> lo <= us <= hi ->
  (forall x, lo <= x <= hi -> inner (g x) (ex_direction c) = k) -> forall min_v max_v, inner (ex_location c) (ex_direction c) = 0 -> min_v <= vs <= max_v ->
  let p := padd (padd (ex_location c) (g us)) (pmul vs (ex_direction c)) in
  exists u, ex_inverse_evaluate c p lo hi min_v max_v = Ok ((u, vs), true) /\ lo <= u <= hi /\ ex_evaluate c u vs = Ok p.
Proof. intros d. exact (@extrusion_round_trip d). Qed.
Print Assumptions C42_extrusion_inverse_partial.
(** What is computed for any location: v is off by the location's component along the direction. *)
Theorem C42_extrusion_inverse_actual : forall d (c : extrusion R (vec R d)) pr g g1 g2, ex_profile c = Some pr -> profile_is pr g g1 g2 ->
  inner (ex_direction c) (ex_direction c) = 1 -> forall lo hi k us vs, inverse_nearest pr g lo hi -> lo <= us <= hi ->
  (forall x, lo <= x <= hi -> inner (g x) (ex_direction c) = k) -> forall min_v max_v, min_v <= max_v ->
  exists u, ex_inverse_evaluate c (padd (padd (ex_location c) (g us)) (pmul vs (ex_direction c))) lo hi min_v max_v
      = Ok ((u, Rmin max_v (Rmax min_v (vs + inner (ex_location c) (ex_direction c)))), true) /\ lo <= u <= hi /\ g u = g us.
Proof. intros d. exact (@extrusion_inverse d). Qed.
Print Assumptions C42_extrusion_inverse_actual.
Theorem C42_extrusion_location_refuted : exists (c : extrusion R (vec R 3)) u v q, ex_initialize c = Ok c /\ inner (ex_direction c) (ex_direction c) = 1 /\
  b_ulo (ex_bounds c) <= u <= b_uhi (ex_bounds c) /\ b_vlo (ex_bounds c) <= v <= b_vhi (ex_bounds c) /\ ex_evaluate c u v = Ok q /\
  exists u' v' q', ex_inverse_evaluate c q (b_ulo (ex_bounds c)) (b_uhi (ex_bounds c)) (b_vlo (ex_bounds c)) (b_vhi (ex_bounds c)) = Ok ((u', v'), true) /\
    ex_evaluate c u' v' = Ok q' /\ edist q q' = 1.
Proof. exact extrusion_location_refuted. Qed.
Print Assumptions C42_extrusion_location_refuted.
(** A profile that leans: twenty alternations are not enough, and convergence is reported all the same. *)
Theorem C42_extrusion_skew_refuted : exists (c : extrusion R (vec R 3)) u v q, ex_initialize c = Ok c /\ inner (ex_direction c) (ex_direction c) = 1 /\ ex_location c = p0 /\
  b_ulo (ex_bounds c) <= u <= b_uhi (ex_bounds c) /\ b_vlo (ex_bounds c) <= v <= b_vhi (ex_bounds c) /\ ex_evaluate c u v = Ok q /\
  exists u' v' q', ex_inverse_evaluate c q (b_ulo (ex_bounds c)) (b_uhi (ex_bounds c)) (b_vlo (ex_bounds c)) (b_vhi (ex_bounds c)) = Ok ((u', v'), true) /\
    ex_evaluate c u' v' = Ok q' /\ 1 / 20 < edist q q'.
Proof. exact extrusion_skew_refuted. Qed.
Print Assumptions C42_extrusion_skew_refuted.

(** * C42: revolution *)
Theorem C42_revolution_derivatives : forall (c : revolution R) pr g g1 g2, re_profile c = Some pr -> profile_is pr g g1 g2 -> inner (re_axis c) (re_axis c) = 1 ->
  exists f fu fv fuu fvv fuv,
    (forall u v, re_evaluate c u v = Ok (f u v) /\ re_du c u v = Ok (fu u v) /\ re_dv c u v = Ok (fv u v) /\
      re_duu c u v = Ok (fuu u v) /\ re_dvv c u v = Ok (fvv u v) /\ re_duv c u v = Ok (fuv u v)) /\
    (forall u v, turned (re_location c) (re_axis c) u (g v) (f u v)) /\
    (forall u v, vderiv g v (g1 v) -> vderiv g1 v (g2 v) -> partials f fu fv fuu fvv fuv u v).
Proof. exact revolution_derivatives. Qed.
Print Assumptions C42_revolution_derivatives.
(** Points of the patch are found again when the profile lies in a half plane bounded by the axis and the profile finds its own points;
    missing: profiles that do not lie in such a half plane. *)
Theorem C42_revolution_inverse_partial : forall (c : revolution R) pr g g1 g2, re_profile c = Some pr -> profile_is pr g g1 g2 ->
  forall (e : vec R 3) r z min_v max_v, orthonormal2 (re_axis c) e -> (forall v, g v = padd (re_location c) (padd (pmul (r v) e) (pmul (z v) (re_axis c)))) ->
  (forall v, min_v <= v <= max_v -> 0 < r v) ->
  (forall v, min_v <= v <= max_v -> exists t, pr_inverse pr (g v) min_v max_v = Ok t /\ min_v <= t <= max_v /\ g t = g v) ->
  forall min_u max_u us vs, min_u <= us <= max_u -> min_v <= vs <= max_v -> forall p, re_evaluate c us vs = Ok p -> forall fuel, (2 <= fuel)%nat ->
  exists u v, re_inverse_evaluate fuel c p min_u max_u min_v max_v = Ok ((u, v), true) /\ min_u <= u <= max_u /\ min_v <= v <= max_v /\ re_evaluate c u v = Ok p.
Proof. exact revolution_round_trip. Qed.
Print Assumptions C42_revolution_inverse_partial.

(** * C42: offset *)
Theorem C42_offset_points : forall (c : offset R) b f fu fv fuu fvv fuv, of_base c = Some b -> base_is b f fu fv fuu fvv fuv -> forall u v,
  exists q, of_evaluate c u v = Ok q /\
    (cross_vec (fu u v) (fv u v) <> p0 -> edist q (f u v) = Rabs (of_offset c)) /\ (cross_vec (fu u v) (fv u v) = p0 -> q = f u v) /\
    inner (psub q (f u v)) (fu u v) = 0 /\ inner (psub q (f u v)) (fv u v) = 0 /\
    inner (psub q (f u v)) (cross_vec (fu u v) (fv u v)) = of_offset c * sqrt (inner (cross_vec (fu u v) (fv u v)) (cross_vec (fu u v) (fv u v))).
Proof. exact offset_points. Qed.
Print Assumptions C42_offset_points.
Theorem C42_offset_derivatives : forall (c : offset R) b f fu fv fuu fvv fuv, of_base c = Some b -> base_is b f fu fv fuu fvv fuv ->
  exists q, (forall u v, of_evaluate c u v = Ok (q u v)) /\ forall u v, partials f fu fv fuu fvv fuv u v -> cross_vec (fu u v) (fv u v) <> p0 ->
    exists qu qv, of_du c u v = Ok qu /\ of_dv c u v = Ok qv /\ vderiv (fun x => q x v) u qu /\ vderiv (fun y => q u y) v qv.
Proof. exact offset_derivatives'. Qed.
Print Assumptions C42_offset_derivatives.
(** The second derivatives are central differences with a step of a millionth of the range: each coordinate is the second derivative's at some point within the step. *)
Theorem C42_offset_duu_partial : forall (c : offset R) u v F F', of_base c <> None -> b_ulo (of_bounds c) < b_uhi (of_bounds c) ->
  let h := fd_step (b_ulo (of_bounds c)) (b_uhi (of_bounds c)) in
  (forall x, u - h <= x <= u + h -> of_du c x v = Ok (F x) /\ vderiv F x (F' x)) -> exists q, of_duu c u v = Ok q /\ near_value F' u h q.
Proof. exact offset_duu. Qed.
Print Assumptions C42_offset_duu_partial.
Theorem C42_offset_dvv_partial : forall (c : offset R) u v F F', of_base c <> None -> b_vlo (of_bounds c) < b_vhi (of_bounds c) ->
  let h := fd_step (b_vlo (of_bounds c)) (b_vhi (of_bounds c)) in
  (forall y, v - h <= y <= v + h -> of_dv c u y = Ok (F y) /\ vderiv F y (F' y)) -> exists q, of_dvv c u v = Ok q /\ near_value F' v h q.
Proof. exact offset_dvv. Qed.
Print Assumptions C42_offset_dvv_partial.
Theorem C42_offset_duv_partial : forall (c : offset R) u v F F', of_base c <> None -> b_vlo (of_bounds c) < b_vhi (of_bounds c) ->
  let h := fd_step (b_vlo (of_bounds c)) (b_vhi (of_bounds c)) in
  (forall y, v - h <= y <= v + h -> of_du c u y = Ok (F y) /\ vderiv F y (F' y)) -> exists q, of_duv c u v = Ok q /\ near_value F' v h q.
Proof. exact offset_duv. Qed.
Print Assumptions C42_offset_duv_partial.
Theorem C42_offset_second_refuted : exists (c : offset R) f fu q q', of_initialize c = Ok c /\
  (forall u v, of_evaluate c u v = Ok (f u v) /\ of_du c u v = Ok (fu u v) /\ vderiv (fun x => f x v) u (fu u v)) /\
  vderiv (fun x => fu x 0) 0 q /\ of_duu c 0 0 = Ok q' /\ q' <> q.
Proof. exact offset_second_refuted. Qed.
Print Assumptions C42_offset_second_refuted.
(** A point of the offset is found again when the base patch's inverse evaluation gives its parameters. *)
Theorem C42_offset_inverse_partial : forall (c : offset R) b p min_u max_u min_v max_v u v conv, of_base c = Some b -> bs_inverse b p min_u max_u min_v max_v = Ok ((u, v), conv) ->
  min_u <= u <= max_u -> min_v <= v <= max_v -> of_evaluate c u v = Ok p -> of_inverse_evaluate c p min_u max_u min_v max_v = Ok ((u, v), true).
Proof. exact offset_inverse. Qed.
Print Assumptions C42_offset_inverse_partial.

(** * C83: initialize, flags and missing curves *)
Theorem C83_extrusion : forall d (c : extrusion R (vec R d)) pr g g1 g2, ex_profile c = Some pr -> profile_is pr g g1 g2 -> inner (ex_direction c) (ex_direction c) = 1 ->
  b_ulo (ex_bounds c) <= b_uhi (ex_bounds c) -> b_vlo (ex_bounds c) <= b_vhi (ex_bounds c) ->
  exists f, ex_initialize c = Ok {| ex_location := ex_location c; ex_direction := ex_direction c; ex_profile := ex_profile c; ex_bounds := ex_bounds c; ex_periodic_u := f; ex_periodic_v := false |} /\
    (f = true <-> pr_periodic pr = true /\ edist (g (b_ulo (ex_bounds c))) (g (b_uhi (ex_bounds c))) ^ 2 < eps10).
Proof. exact extrusion_initialize. Qed.
Print Assumptions C83_extrusion.
Theorem C83_revolution : forall (c : revolution R) pr g g1 g2, re_profile c = Some pr -> profile_is pr g g1 g2 -> inner (re_axis c) (re_axis c) = 1 ->
  b_ulo (re_bounds c) <= b_uhi (re_bounds c) -> b_vlo (re_bounds c) <= b_vhi (re_bounds c) ->
  exists fu fv, re_initialize c = Ok {| re_location := re_location c; re_axis := re_axis c; re_profile := re_profile c; re_bounds := re_bounds c; re_periodic_u := fu; re_periodic_v := fv |} /\
    (fu = true <-> whole_turns eps10 (b_ulo (re_bounds c)) (b_uhi (re_bounds c))) /\
    (fv = true <-> pr_periodic pr = true /\ edist (g (b_vlo (re_bounds c))) (g (b_vhi (re_bounds c))) ^ 2 < eps10).
Proof. exact revolution_initialize. Qed.
Print Assumptions C83_revolution.
Theorem C83_null_profile : forall d (c : extrusion R (vec R d)), ex_profile c = None -> forall u v p a b e f,
  ex_initialize c = Throw invalid_setting_error /\ ex_evaluate c u v = Throw invalid_setting_error /\ ex_du c u v = Throw invalid_setting_error /\
  ex_duu c u v = Throw invalid_setting_error /\ ex_inverse_evaluate c p a b e f = Throw invalid_setting_error.
Proof. exact extrusion_null. Qed.
Print Assumptions C83_null_profile.
(** Offset: initialize, shrink the range, initialize: the patch is still flagged as periodic although its ends no longer meet. *)
Theorem C83_offset_refuted : exists (c c1 c2 : offset R) b f, of_base c = Some b /\ (forall u v, of_evaluate c2 u v = Ok (f u v)) /\
  of_periodic_u c = false /\ of_initialize c = Ok c1 /\ of_initialize (of_set_bounds c1 {| b_ulo := 0; b_uhi := PI; b_vlo := 0; b_vhi := 1 |}) = Ok c2 /\
  of_periodic_u c2 = true /\ f (b_ulo (of_bounds c2)) 0 <> f (b_uhi (of_bounds c2)) 0.
Proof. exact offset_flag_refuted. Qed.
Print Assumptions C83_offset_refuted.

(** * The hypotheses are met *)
Definition wall_line : line R (vec R 3) := {| ln_location := pt3 1 0 0; ln_direction := pt3 0 1 0; ln_lower := 0; ln_upper := 1 |}.
Definition wall : extrusion R (vec R 3) := {| ex_location := pt3 5 0 0; ex_direction := pt3 0 0 1; ex_profile := Some (line_profile wall_line);
  ex_bounds := {| b_ulo := 0; b_uhi := 1; b_vlo := 0; b_vhi := 2 |}; ex_periodic_u := false; ex_periodic_v := false |}.
Example C42_hyp_extrusion : exists pr g g1 g2, ex_profile wall = Some pr /\ profile_is pr g g1 g2 /\ inner (ex_direction wall) (ex_direction wall) = 1 /\
  inverse_nearest pr g 0 1 /\ (forall x, 0 <= x <= 1 -> inner (g x) (ex_direction wall) = 0) /\ inner (ex_location wall) (ex_direction wall) = 0 /\ g 0 <> g 1.
Proof.
  exists (line_profile wall_line), (fun t => padd (ln_location wall_line) (pmul t (ln_direction wall_line))), (fun _ => ln_direction wall_line), (fun _ => p0).
  split; [reflexivity|]. split; [apply line_profile_is|]. split; [cbn [wall ex_direction]; rewrite inner3; lra|]. split; [|split; [|split]].
  - apply line_profile_nearest; [|lra]. intros E. apply (f_equal (fun p : vec R 3 => fst (snd p))) in E. cbn in E. lra.
  - intros x _. unfold inner. cbn. ring.
  - cbn [wall ex_location ex_direction]. rewrite inner3. lra.
  - intros E. apply (f_equal (fun p : vec R 3 => fst (snd p))) in E. cbn in E. lra.
Qed.
Definition tube_line : line R (vec R 3) := {| ln_location := pt3 1 0 0; ln_direction := pt3 0 0 1; ln_lower := 0; ln_upper := 1 |}.
Definition tube : revolution R := {| re_location := p0; re_axis := pt3 0 0 1; re_profile := Some (line_profile tube_line);
  re_bounds := {| b_ulo := 0; b_uhi := 2 * PI; b_vlo := 0; b_vhi := 1 |}; re_periodic_u := true; re_periodic_v := false |}.
Example C42_hyp_revolution : exists pr g g1 g2 e r z, re_profile tube = Some pr /\ profile_is pr g g1 g2 /\ inner (re_axis tube) (re_axis tube) = 1 /\ orthonormal2 (re_axis tube) e /\
  (forall v, g v = padd (re_location tube) (padd (pmul (r v) e) (pmul (z v) (re_axis tube)))) /\ (forall v, 0 <= v <= 1 -> 0 < r v) /\
  (forall v, 0 <= v <= 1 -> exists t, pr_inverse pr (g v) 0 1 = Ok t /\ 0 <= t <= 1 /\ g t = g v).
Proof.
  exists (line_profile tube_line), (fun t => padd (ln_location tube_line) (pmul t (ln_direction tube_line))), (fun _ => ln_direction tube_line), (fun _ => p0), (pt3 1 0 0), (fun _ => 1), (fun v => v).
  split; [reflexivity|]. split; [apply line_profile_is|]. split; [cbn [tube re_axis]; rewrite inner3; lra|]. split; [repeat split; cbn [tube re_axis]; rewrite inner3; lra|]. split; [|split].
  - intros v. cbn [tube tube_line re_location re_axis ln_location ln_direction]. v3eq; ring.
  - intros; lra.
  - apply nearest_exact. apply line_profile_nearest; [|lra]. intros E. apply (f_equal (fun p : vec R 3 => fst (snd (snd p)))) in E. cbn in E. lra.
Qed.
Example C42_hyp_offset : exists (c : offset R) b f fu fv fuu fvv fuv, of_base c = Some b /\ base_is b f fu fv fuu fvv fuv /\
  (forall u v, partials f fu fv fuu fvv fuv u v) /\ cross_vec (fu 0 0) (fv 0 0) <> p0 /\ of_offset c = 1.
Proof.
  destruct (cylinder_is cyl1) as (f & fu & fv & fuu & fvv & fuv & E & H).
  exists (offset1 {| b_ulo := 0; b_uhi := 2 * PI; b_vlo := 0; b_vhi := 1 |} true false), (cylinder_base cyl1), f, fu, fv, fuu, fvv, fuv.
  split; [reflexivity|]. split; [exact E|]. split; [exact H|]. split; [|reflexivity].
  destruct (E 0 0) as (_ & Eu & Ev & _). rewrite cyl1_du in Eu. cbn [cy_dv] in Ev. apply Ok_inj in Eu. apply Ok_inj in Ev. rewrite <- Eu, <- Ev, sin_0, cos_0.
  intros X. apply (f_equal (fun p : vec R 3 => fst p)) in X. cbn in X. lra.
Qed.
