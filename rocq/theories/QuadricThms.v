(** Proofs about Plane.h, Cylinder.h, Cone.h, Sphere.h and Torus.h. *)
From Coq Require Import Reals Lra Lia ZArith Psatz Bool.
From Coquelicot Require Import Coquelicot.
From Verif Require Import Monad MonadFacts Scalar ScalarFacts Spec SpecFacts SpecGeom SpecPatch SpecPrimitive ModelCurve ModelPatchBase ModelPrimitive CurveThms LineThms IntersectThms TrigFacts PrimitiveFacts CircleThms.
Local Open Scope R_scope.

Lemma vderiv_at3' {d} (o a b c : vec R d) (x y z : R -> R) t x' y' z' :
  derivable_pt_lim x t x' -> derivable_pt_lim y t y' -> derivable_pt_lim z t z' ->
  vderiv (fun s => at3 o a b c (x s) (y s) (z s)) t (at3 p0 a b c x' y' z').
Proof. intros. now apply (vderiv_at3 o a b c x y z t x' y' z'). Qed.

Ltac evpt := apply f_equal; vext; cbn [scos ssin sopp s1 sadd smul R_ops R_trig]; try ring.
Ltac part := repeat split; apply vderiv_at3'; dlim.

(** * Plane *)
Definition pl_pt {d} (c : plane R (vec R d)) u v := at3 (pl_location c) (pl_x c) (pl_y c) p0 u v 0.
Lemma plane_is d (c : plane R (vec R d)) : accessors_exact (pl_evaluate c) (pl_du c) (pl_dv c) (pl_duu c) (pl_dvv c) (pl_duv c).
Proof.
  exists (pl_pt c), (fun _ _ => at3 p0 (pl_x c) (pl_y c) p0 1 0 0), (fun _ _ => at3 p0 (pl_x c) (pl_y c) p0 0 1 0),
    (fun _ _ => at3 p0 (pl_x c) (pl_y c) p0 0 0 0), (fun _ _ => at3 p0 (pl_x c) (pl_y c) p0 0 0 0), (fun _ _ => at3 p0 (pl_x c) (pl_y c) p0 0 0 0).
  split.
  - intros u v. unfold pl_evaluate, pl_du, pl_dv, pl_duu, pl_dvv, pl_duv, pl_pt. repeat split; evpt.
  - intros u v. unfold pl_pt. part.
Qed.
Lemma pl_eval {d} (c : plane R (vec R d)) u v : pl_evaluate c u v = Ok (pl_pt c u v).
Proof. unfold pl_evaluate, pl_pt. evpt. Qed.

Lemma plane_points d (c : plane R (vec R d)) u v : exists q, pl_evaluate c u v = Ok q /\ in_plane (pl_location c) (pl_x c) (pl_y c) q.
Proof. exists (pl_pt c u v). split; [apply pl_eval|]. intros n Ha Hb. unfold pl_pt. rewrite along_at3, Ha, Hb. ring. Qed.

Lemma plane_dist d (c : plane R (vec R d)) p u v : inner (pl_x c) (pl_y c) = 0 ->
  edist p (pl_pt c u v) ^ 2 = edist p (pl_location c) ^ 2 - 2 * u * along (pl_location c) (pl_x c) p + u ^ 2 * inner (pl_x c) (pl_x c)
    - 2 * v * along (pl_location c) (pl_y c) p + v ^ 2 * inner (pl_y c) (pl_y c).
Proof.
  intros H. rewrite !edist_inner. unfold along, pl_pt, at3. bilin. set (o := pl_location c). set (a := pl_x c) in *. set (b := pl_y c) in *.
  rewrite ?inner_0_l, ?(inner_comm _ _ p0), ?inner_0_l.
  rewrite (inner_comm _ b a), (inner_comm _ o p), (inner_comm _ a p), (inner_comm _ b p), (inner_comm _ a o), (inner_comm _ b o), H. ring.
Qed.

Lemma plane_nearest d (c : plane R (vec R d)) p min_u max_u min_v max_v :
  pl_x c <> p0 -> pl_y c <> p0 -> inner (pl_x c) (pl_y c) = 0 -> min_u <= max_u -> min_v <= max_v ->
  exists u v q, pl_inverse_evaluate c p min_u max_u min_v max_v = Ok ((u, v), true) /\ min_u <= u <= max_u /\ min_v <= v <= max_v /\
    pl_evaluate c u v = Ok q /\
    forall x y q', min_u <= x <= max_u -> min_v <= y <= max_v -> pl_evaluate c x y = Ok q' -> edist p q <= edist p q'.
Proof.
  intros Hx Hy Hxy Hu Hv. apply inner_pos_lt in Hx, Hy. unfold pl_inverse_evaluate, ddiv, sqnorm. rewrite !along_pdot_r, !pdot_inner.
  set (A := inner (pl_x c) (pl_x c)) in *. set (B := inner (pl_y c) (pl_y c)) in *. set (x := along (pl_location c) (pl_x c) p). set (y := along (pl_location c) (pl_y c) p).
  cbn [seq_ s0 sdiv R_ops]. rewrite !Reqb_false by lra. cbn [bind].
  destruct (clamp_spec min_u max_u (x / A) Hu) as (Ru & _ & Nu). destruct (clamp_spec min_v max_v (y / B) Hv) as (Rv & _ & Nv).
  set (u := smax min_u _) in *. set (v := smax min_v _) in *. exists u, v, (pl_pt c u v). split; [reflexivity|]. split; [exact Ru|]. split; [exact Rv|].
  split; [apply pl_eval|]. intros s w q' Hs Hw Eq. rewrite pl_eval in Eq. apply Ok_inj in Eq. subst q'. apply edist_le_sq.
  rewrite !plane_dist by exact Hxy. fold A B x y. specialize (Nu s Hs). specialize (Nv w Hw).
  assert (Ex : x = x / A * A) by (field; lra). assert (Ey : y = y / B * B) by (field; lra). set (m := x / A) in *. set (n := y / B) in *. clearbody m n.
  rewrite Ex, Ey. assert (0 <= A * ((s - m) ^ 2 - (u - m) ^ 2)) by (apply Rmult_le_pos; lra). assert (0 <= B * ((w - n) ^ 2 - (v - n) ^ 2)) by (apply Rmult_le_pos; lra). nra.
Qed.

(** Nearest implies round trip. *)
Lemma plane_round_trip d (c : plane R (vec R d)) min_u max_u min_v max_v u v q :
  pl_x c <> p0 -> pl_y c <> p0 -> inner (pl_x c) (pl_y c) = 0 -> min_u <= u <= max_u -> min_v <= v <= max_v -> pl_evaluate c u v = Ok q ->
  pl_inverse_evaluate c q min_u max_u min_v max_v = Ok ((u, v), true).
Proof.
  intros Hx Hy Hxy Hu Hv Eq. rewrite pl_eval in Eq. apply Ok_inj in Eq. subst q. apply inner_pos_lt in Hx, Hy.
  unfold pl_inverse_evaluate, ddiv, sqnorm. rewrite !along_pdot_r, !pdot_inner. unfold pl_pt. rewrite !along_at3, (inner_comm _ p0), (inner_comm _ p0), !(inner_comm _ _ p0), !inner_0_l.
  rewrite (inner_comm _ (pl_y c) (pl_x c)), Hxy. cbn [seq_ s0 sdiv R_ops]. rewrite !Reqb_false by lra. cbn [bind].
  set (A := inner (pl_x c) (pl_x c)) in *. set (B := inner (pl_y c) (pl_y c)) in *.
  replace ((u * A + v * 0 + 0 * 0) / A) with u by (field; lra). replace ((u * 0 + v * B + 0 * 0) / B) with v by (field; lra).
  destruct (clamp_spec min_u max_u u ltac:(lra)) as (_ & -> & _); [|exact Hu]. destruct (clamp_spec min_v max_v v ltac:(lra)) as (_ & -> & _); [reflexivity|exact Hv].
Qed.

(** * Clipping an angle *)
Lemma clip_angle t lo hi : lo <= hi -> exists r, clip_periodic_parameter t lo hi (sofZ 2 * spi)%S = Ok r /\ lo <= r <= hi /\
  (forall x, lo <= x <= hi -> cos (x - t) <= cos (r - t)) /\ (lo + 2 * PI <= hi -> cos r = cos t /\ sin r = sin t).
Proof.
  intros Hl. pose proof PI_RGT_0 as HP. destruct (patch_clip t lo hi (2 * PI) ltac:(lra) Hl) as (r & E & Hr & Hex & Hn).
  exists r. split; [exact E|]. split; [exact Hr|]. split.
  - exact (cos_nearest (fun x => lo <= x <= hi) t r Hn).
  - intros Hfull. destruct (clip_step t lo (2 * PI) ltac:(lra)) as (k & _ & Hk). destruct (Hex ltac:(exists k; lra)) as [j ->].
    now rewrite cos_period_Z, sin_period_Z.
Qed.

(** * The rotational patches *)
Section Rot.
  Context {d : nat} (c : rotsurf R (vec R d)).
  Let o := rv_location c. Let ax := rv_x c. Let ay := rv_y c. Let az := rv_z c. Let r := rv_r c. Let a := rv_a c.
  Definition fr (x y z : R) : vec R d := at3 o ax ay az x y z.
  Definition fr0 (x y z : R) : vec R d := at3 p0 ax ay az x y z.

  Definition cy_pt u v := fr (r * cos u) (r * sin u) v.
  Definition co_pt u v := fr ((r + v * sin a) * cos u) ((r + v * sin a) * sin u) (v * cos a).
  Definition sp_pt u v := fr (r * cos v * cos u) (r * cos v * sin u) (r * sin v).
  Definition to_pt u v := fr ((r + a * cos v) * cos u) ((r + a * cos v) * sin u) (a * sin v).
  Lemma cy_eval u v : cy_evaluate c u v = Ok (cy_pt u v).
  Proof. unfold cy_evaluate, cy_pt, fr, o, ax, ay, az, r. evpt. Qed.
  Lemma co_eval u v : co_evaluate c u v = Ok (co_pt u v).
  Proof. unfold co_evaluate, co_pt, fr, o, ax, ay, az, r, a. evpt. Qed.
  Lemma sp_eval u v : sp_evaluate c u v = Ok (sp_pt u v).
  Proof. unfold sp_evaluate, sp_pt, fr, o, ax, ay, az, r. evpt. Qed.
  Lemma to_eval u v : to_evaluate c u v = Ok (to_pt u v).
  Proof. unfold to_evaluate, to_pt, fr, o, ax, ay, az, r, a. evpt. Qed.

  Lemma cylinder_is : accessors_exact (cy_evaluate c) (cy_du c) (cy_dv c) (cy_duu c) (cy_dvv c) (cy_duv c).
  Proof.
    exists cy_pt, (fun u _ => fr0 (- r * sin u) (r * cos u) 0), (fun _ _ => fr0 0 0 1), (fun u _ => fr0 (- r * cos u) (- r * sin u) 0),
      (fun _ _ => fr0 0 0 0), (fun _ _ => fr0 0 0 0).
    split.
    - intros u v. rewrite cy_eval. unfold cy_du, cy_dv, cy_duu, cy_dvv, cy_duv, fr0, ax, ay, az, r. repeat split; evpt.
    - intros u v. unfold cy_pt, fr, fr0. part.
  Qed.
  Lemma cone_is : accessors_exact (co_evaluate c) (co_du c) (co_dv c) (co_duu c) (co_dvv c) (co_duv c).
  Proof.
    exists co_pt, (fun u v => fr0 (- (r + v * sin a) * sin u) ((r + v * sin a) * cos u) 0), (fun u _ => fr0 (sin a * cos u) (sin a * sin u) (cos a)),
      (fun u v => fr0 (- (r + v * sin a) * cos u) (- (r + v * sin a) * sin u) 0), (fun _ _ => fr0 0 0 0), (fun u _ => fr0 (- sin a * sin u) (sin a * cos u) 0).
    split.
    - intros u v. rewrite co_eval. unfold co_du, co_dv, co_duu, co_dvv, co_duv, fr0, ax, ay, az, r, a. repeat split; evpt.
    - intros u v. unfold co_pt, fr, fr0. part.
  Qed.
  Lemma sphere_is : accessors_exact (sp_evaluate c) (sp_du c) (sp_dv c) (sp_duu c) (sp_dvv c) (sp_duv c).
  Proof.
    exists sp_pt, (fun u v => fr0 (- r * cos v * sin u) (r * cos v * cos u) 0), (fun u v => fr0 (- r * sin v * cos u) (- r * sin v * sin u) (r * cos v)),
      (fun u v => fr0 (- r * cos v * cos u) (- r * cos v * sin u) 0), (fun u v => fr0 (- r * cos v * cos u) (- r * cos v * sin u) (- r * sin v)),
      (fun u v => fr0 (r * sin v * sin u) (- r * sin v * cos u) 0).
    split.
    - intros u v. rewrite sp_eval. unfold sp_du, sp_dv, sp_duu, sp_dvv, sp_duv, fr0, ax, ay, az, r. repeat split; evpt.
    - intros u v. unfold sp_pt, fr, fr0. part.
  Qed.
  Lemma torus_is : accessors_exact (to_evaluate c) (to_du c) (to_dv c) (to_duu c) (to_dvv c) (to_duv c).
  Proof.
    exists to_pt, (fun u v => fr0 (- (r + a * cos v) * sin u) ((r + a * cos v) * cos u) 0), (fun u v => fr0 (- a * sin v * cos u) (- a * sin v * sin u) (a * cos v)),
      (fun u v => fr0 (- (r + a * cos v) * cos u) (- (r + a * cos v) * sin u) 0), (fun u v => fr0 (- a * cos v * cos u) (- a * cos v * sin u) (- a * sin v)),
      (fun u v => fr0 (a * sin v * sin u) (- a * sin v * cos u) 0).
    split.
    - intros u v. rewrite to_eval. unfold to_du, to_dv, to_duu, to_dvv, to_duv, fr0, ax, ay, az, r, a. repeat split; evpt.
    - intros u v. unfold to_pt, fr, fr0. part.
  Qed.

  (** ** Implicit equations *)
  Context (Ho : orthonormal3 ax ay az).
  Lemma fr_along x y z : along o ax (fr x y z) = x /\ along o ay (fr x y z) = y /\ along o az (fr x y z) = z.
  Proof. now apply along_at3_frame. Qed.
  Lemma cylinder_points u v : exists q, cy_evaluate c u v = Ok q /\
    along o ax q ^ 2 + along o ay q ^ 2 = r ^ 2 /\ along o az q = v.
  Proof.
    exists (cy_pt u v). split; [apply cy_eval|]. unfold cy_pt. destruct (fr_along (r * cos u) (r * sin u) v) as (-> & -> & ->). split; [|reflexivity].
    transitivity (r ^ 2 * (cos u * cos u + sin u * sin u)); [ring|rewrite cs1; ring].
  Qed.
  Lemma cone_points u v : exists q, co_evaluate c u v = Ok q /\
    along o ax q ^ 2 + along o ay q ^ 2 = (r + v * sin a) ^ 2 /\ along o az q = v * cos a.
  Proof.
    exists (co_pt u v). split; [apply co_eval|]. unfold co_pt.
    destruct (fr_along ((r + v * sin a) * cos u) ((r + v * sin a) * sin u) (v * cos a)) as (-> & -> & ->). split; [|reflexivity].
    transitivity ((r + v * sin a) ^ 2 * (cos u * cos u + sin u * sin u)); [ring|rewrite cs1; ring].
  Qed.
  Lemma sphere_points u v : exists q, sp_evaluate c u v = Ok q /\
    along o ax q ^ 2 + along o ay q ^ 2 + along o az q ^ 2 = r ^ 2 /\ edist q o = Rabs r.
  Proof.
    exists (sp_pt u v). split; [apply sp_eval|]. unfold sp_pt. destruct (fr_along (r * cos v * cos u) (r * cos v * sin u) (r * sin v)) as (-> & -> & ->).
    assert (E : (r * cos v * cos u) * (r * cos v * cos u) + (r * cos v * sin u) * (r * cos v * sin u) + (r * sin v) * (r * sin v) = r ^ 2).
    { transitivity (r ^ 2 * (cos v * cos v * (cos u * cos u + sin u * sin u) + sin v * sin v)); [ring|]. rewrite cs1, Rmult_1_r, cs1. ring. }
    split; [rewrite <- E; ring|]. rewrite edist_sym. rewrite <- (sqrt_pow2 (edist _ _)) by apply edist_pos. unfold fr. rewrite edist_at3 by exact Ho.
    rewrite edist_refl. unfold along. rewrite !inner_sub_l. rewrite <- sqrt_Rsqr_abs. f_equal. unfold Rsqr. transitivity (r ^ 2); [rewrite <- E|]; ring.
  Qed.
  Lemma torus_points u v : exists q, to_evaluate c u v = Ok q /\
    (along o ax q ^ 2 + along o ay q ^ 2 + along o az q ^ 2 + r ^ 2 - a ^ 2) ^ 2 = 4 * r ^ 2 * (along o ax q ^ 2 + along o ay q ^ 2).
  Proof.
    exists (to_pt u v). split; [apply to_eval|]. unfold to_pt.
    destruct (fr_along ((r + a * cos v) * cos u) ((r + a * cos v) * sin u) (a * sin v)) as (-> & -> & ->).
    assert (E1 : ((r + a * cos v) * cos u) ^ 2 + ((r + a * cos v) * sin u) ^ 2 = (r + a * cos v) ^ 2).
    { transitivity ((r + a * cos v) ^ 2 * (cos u * cos u + sin u * sin u)); [ring|rewrite cs1; ring]. }
    rewrite E1. replace ((r + a * cos v) ^ 2 + (a * sin v) ^ 2) with (r ^ 2 + 2 * r * a * cos v + a ^ 2 * (cos v * cos v + sin v * sin v)) by ring.
    rewrite cs1. ring.
  Qed.

  (** ** Inverse evaluation *)
  Lemma fr_dist p x y z : edist p (fr x y z) ^ 2 = edist p o ^ 2 - 2 * (x * along o ax p + y * along o ay p + z * along o az p) + x * x + y * y + z * z.
  Proof. now apply edist_at3. Qed.
  (** A point at distance [w >= 0] from the axis, at angle [u] and height [z]. *)
  Lemma fr_polar p w u z : let x := along o ax p in let y := along o ay p in
    edist p (fr (w * cos u) (w * sin u) z) ^ 2 = edist p o ^ 2 + w ^ 2 - 2 * w * (sqrt (x * x + y * y) * cos (u - Ratan2 y x)) - 2 * z * along o az p + z * z.
  Proof.
    intros x y. rewrite fr_dist. fold x y. rewrite <- polar_dot.
    transitivity (edist p o ^ 2 + w ^ 2 * (cos u * cos u + sin u * sin u) - 2 * w * (x * cos u + y * sin u) - 2 * z * along o az p + z * z); [ring|rewrite cs1; ring].
  Qed.

  Lemma cylinder_nearest p min_u max_u min_v max_v : 0 <= r -> min_u <= max_u -> min_v <= max_v ->
    exists u v q, cy_inverse_evaluate c p min_u max_u min_v max_v = Ok ((u, v), true) /\ min_u <= u <= max_u /\ min_v <= v <= max_v /\
      cy_evaluate c u v = Ok q /\
      forall x y q', min_u <= x <= max_u -> min_v <= y <= max_v -> cy_evaluate c x y = Ok q' -> edist p q <= edist p q'.
  Proof.
    intros Hr Hu Hv. unfold cy_inverse_evaluate. rewrite !along_pdot_r. fold o ax ay az. set (x := along o ax p). set (y := along o ay p). set (z := along o az p).
    destruct (clip_angle (Ratan2 y x) min_u max_u Hu) as (u & E & Ru & Nu & _). cbn [satan2 R_trig]. rewrite E. cbn [bind].
    destruct (clamp_spec min_v max_v z Hv) as (Rv & _ & Nv). set (v := smax min_v _) in *. exists u, v, (cy_pt u v). split; [reflexivity|].
    split; [exact Ru|]. split; [exact Rv|]. split; [apply cy_eval|]. intros s w q' Hs Hw Eq. rewrite cy_eval in Eq. apply Ok_inj in Eq. subst q'.
    apply edist_le_sq. unfold cy_pt. rewrite !fr_polar. fold x y z. specialize (Nu s Hs). specialize (Nv w Hw).
    assert (0 <= r * sqrt (x * x + y * y)) by (apply Rmult_le_pos; [exact Hr|apply sqrt_pos]). nra.
  Qed.
  Lemma cylinder_round_trip min_u max_u min_v max_v u v q : 0 <= r -> min_u <= u <= max_u -> min_v <= v <= max_v -> cy_evaluate c u v = Ok q ->
    exists u' v', cy_inverse_evaluate c q min_u max_u min_v max_v = Ok ((u', v'), true) /\ min_u <= u' <= max_u /\ min_v <= v' <= max_v /\ cy_evaluate c u' v' = Ok q.
  Proof.
    intros Hr Hu Hv Eq. destruct (cylinder_nearest q min_u max_u min_v max_v Hr ltac:(lra) ltac:(lra)) as (u' & v' & q' & E & Ru & Rv & Eq' & Hn).
    exists u', v'. repeat split; try assumption; try lra. rewrite Eq'. f_equal. symmetry. apply edist_eq0. specialize (Hn u v q Hu Hv Eq). now rewrite edist_refl in Hn.
  Qed.

  (** Cone *)
  Lemma cone_inverse p min_u max_u min_v max_v : min_u <= max_u -> min_v <= max_v ->
    let x := along o ax p in let y := along o ay p in let z := along o az p in
    exists u, clip_periodic_parameter (Ratan2 y x) min_u max_u (sofZ 2 * spi)%S = Ok u /\ min_u <= u <= max_u /\
      (forall s, min_u <= s <= max_u -> cos (s - Ratan2 y x) <= cos (u - Ratan2 y x)) /\ (min_u + 2 * PI <= max_u -> cos u = cos (Ratan2 y x) /\ sin u = sin (Ratan2 y x)) /\
      co_inverse_evaluate c p min_u max_u min_v max_v =
        Ok ((u, smax min_v (smin ((sqrt (x * x + y * y) - r) * sin a + z * cos a) max_v)), true).
  Proof.
    intros Hu Hv x y z. destruct (clip_angle (Ratan2 y x) min_u max_u Hu) as (u & E & Ru & Nu & Fu). exists u. split; [exact E|]. split; [exact Ru|]. split; [exact Nu|]. split; [exact Fu|].
    destruct Ho as ((Hx & Hy & Hxy) & Hz & Hxz & Hyz). destruct (atan2_polar y x) as [Px Py].
    unfold co_inverse_evaluate. rewrite !along_pdot_r. fold o ax ay az r a. fold x y. cbn [satan2 scos ssin R_trig]. set (phi := Ratan2 y x) in *.
    set (dir := padd (pmul (cos phi) ax) (pmul (sin phi) ay)). set (dd := padd (pmul (sin a) dir) (pmul (cos a) az)).
    assert (Dd : inner dir dir = 1). { unfold dir. bilin. rewrite (inner_comm _ ay ax), Hx, Hy, Hxy. pose proof (cs1 phi). lra. }
    assert (Dz : inner dir az = 0). { unfold dir. bilin. rewrite Hxz, Hyz. ring. }
    assert (Nd : pnorm dd = 1). { unfold pnorm, sqnorm. rewrite pdot_inner. unfold dd. bilin. rewrite (inner_comm _ az dir), Dd, Dz, Hz. cbn [ssqrt R_ops]. transitivity (sqrt 1); [|apply sqrt_1]. f_equal. pose proof (cs1 a). lra. }
    cbv zeta. rewrite Nd. cbn [ssub s1 slt R_ops]. rewrite sabs_R. replace (1 - 1) with 0 by ring. rewrite Rabs_R0.
    rewrite Rltb_true. 2:{ cbn [sofQ R_ops QArith_base.Qnum QArith_base.Qden]. apply Rmult_lt_0_compat; [lra|]. apply Rinv_0_lt_compat. apply IZR_lt. reflexivity. }
    cbn [assert_ bind]. rewrite E. cbn [bind].
    assert (Ep : along (padd o (pmul r dir)) dd p = sin a * (cos phi * x + sin phi * y - r) + cos a * z).
    { transitivity (sin a * (inner (psub p o) dir - r * inner dir dir) + cos a * (inner (psub p o) az - r * inner dir az)).
      - unfold along, dd. bilin. ring.
      - rewrite Dd, Dz. fold (along o az p). fold z. unfold dir. rewrite inner_add_r, !inner_mul_r. fold (along o ax p). fold (along o ay p). fold x y. ring. }
    rewrite Ep.
    replace (sin a * (cos phi * x + sin phi * y - r) + cos a * z) with ((sqrt (x * x + y * y) - r) * sin a + z * cos a); [reflexivity|].
    clearbody phi. set (h := sqrt (x * x + y * y)) in *. clearbody h. rewrite <- Px, <- Py.
    transitivity (sin a * (h * (cos phi * cos phi + sin phi * sin phi) - r) + cos a * z); [rewrite cs1; ring|ring].
  Qed.
  Lemma cone_round_trip min_u max_u min_v max_v u v q : min_u <= u <= max_u -> min_v <= v <= max_v -> 0 <= r + v * sin a -> co_evaluate c u v = Ok q ->
    exists u' v', co_inverse_evaluate c q min_u max_u min_v max_v = Ok ((u', v'), true) /\ min_u <= u' <= max_u /\ min_v <= v' <= max_v /\ co_evaluate c u' v' = Ok q.
  Proof.
    intros Hu Hv Hw Eq. rewrite co_eval in Eq. apply Ok_inj in Eq. subst q.
    destruct (cone_inverse (co_pt u v) min_u max_u min_v max_v ltac:(lra) ltac:(lra)) as (u' & _ & Ru & Nu & _ & E). rewrite E. clear E.
    unfold co_pt in Nu. unfold co_pt at 1 2 3 4 5. destruct (fr_along ((r + v * sin a) * cos u) ((r + v * sin a) * sin u) (v * cos a)) as (Ex & Ey & Ez).
    rewrite Ex, Ey, Ez. rewrite Ex, Ey in Nu. set (w := r + v * sin a) in *. rewrite sqrt_sq_abs by apply cs1. rewrite Rabs_right by lra.
    replace ((w - r) * sin a + v * cos a * cos a) with v. 2:{ unfold w. transitivity (v * (cos a * cos a + sin a * sin a)); [rewrite cs1; ring|ring]. }
    destruct (clamp_spec min_v max_v v ltac:(lra)) as (_ & Ev & _). rewrite (Ev Hv). exists u', v. split; [reflexivity|]. split; [exact Ru|]. split; [exact Hv|].
    rewrite co_eval. f_equal. unfold co_pt. fold w. destruct Hw as [Hw|Hw].
    - destruct (atan2_of_polar w u Hw) as [Ec Es]. specialize (Nu u Hu). rewrite !cos_minus, Ec, Es in Nu. rewrite cs1 in Nu. rewrite <- cos_minus in Nu.
      destruct (cos_diff_1 _ _ Nu) as [-> ->]. reflexivity.
    - rewrite <- Hw, !Rmult_0_l. reflexivity.
  Qed.
  Lemma cone_nearest p min_u max_u min_v max_v : min_u + 2 * PI <= max_u -> min_v <= max_v -> (forall v, min_v <= v <= max_v -> 0 <= r + v * sin a) ->
    exists u v q, co_inverse_evaluate c p min_u max_u min_v max_v = Ok ((u, v), true) /\ min_u <= u <= max_u /\ min_v <= v <= max_v /\
      co_evaluate c u v = Ok q /\
      forall x y q', min_u <= x <= max_u -> min_v <= y <= max_v -> co_evaluate c x y = Ok q' -> edist p q <= edist p q'.
  Proof.
    intros Hu Hv Hw. pose proof PI_RGT_0. destruct (cone_inverse p min_u max_u min_v max_v ltac:(lra) Hv) as (u & _ & Ru & Nu & Fu & E). rewrite E. clear E.
    set (x := along o ax p) in *. set (y := along o ay p) in *. set (z := along o az p) in *. set (h := sqrt (x * x + y * y)). assert (Hh : 0 <= h) by apply sqrt_pos.
    set (v0 := (h - r) * sin a + z * cos a). destruct (clamp_spec min_v max_v v0 Hv) as (Rv & _ & Nv). set (v := smax min_v _) in *. exists u, v, (co_pt u v).
    split; [reflexivity|]. split; [exact Ru|]. split; [exact Rv|]. split; [apply co_eval|]. intros s w q' Hs Hw' Eq. rewrite co_eval in Eq. apply Ok_inj in Eq. subst q'.
    apply edist_le_sq. unfold co_pt. rewrite !fr_polar. fold x y z. fold h. specialize (Nv w Hw'). pose proof (Hw w Hw') as Hpos. pose proof (Hw v Rv) as Hposv.
    assert (C1 : cos (u - Ratan2 y x) = 1). { destruct (Fu Hu) as [E1 E2]. rewrite cos_minus, E1, E2, cs1. reflexivity. }
    rewrite C1. pose proof (COS_bound (s - Ratan2 y x)) as [_ Cs]. set (cs := cos (s - Ratan2 y x)) in *.
    assert (Q : forall t, (r + t * sin a) ^ 2 - 2 * (r + t * sin a) * (h * 1) - 2 * (t * cos a) * z + t * cos a * (t * cos a) = (t - v0) ^ 2 - v0 ^ 2 + r ^ 2 - 2 * r * h).
    { intros t. transitivity (t * t * (cos a * cos a + sin a * sin a) - 2 * t * v0 + r ^ 2 - 2 * r * h); [unfold v0; ring|rewrite cs1; ring]. }
    pose proof (Q v). pose proof (Q w). assert (0 <= (r + w * sin a) * h) by (apply Rmult_le_pos; assumption). nra.
  Qed.

  (** Sphere *)
  Lemma sphere_nearest p min_u max_u min_v max_v : 0 <= r -> min_u + 2 * PI <= max_u -> - (PI / 2) <= min_v -> min_v <= max_v -> max_v <= PI / 2 ->
    exists u v q, sp_inverse_evaluate c p min_u max_u min_v max_v = Ok ((u, v), true) /\ min_u <= u <= max_u /\ min_v <= v <= max_v /\
      sp_evaluate c u v = Ok q /\
      forall x y q', min_u <= x <= max_u -> min_v <= y <= max_v -> sp_evaluate c x y = Ok q' -> edist p q <= edist p q'.
  Proof.
    intros Hr Hu Hv1 Hv Hv2. pose proof PI_RGT_0. unfold sp_inverse_evaluate. rewrite !along_pdot_r. fold o ax ay az. set (x := along o ax p). set (y := along o ay p). set (z := along o az p).
    cbn [satan2 R_trig]. unfold shypot. cbn [ssqrt smul sadd R_ops]. set (h := sqrt (x * x + y * y)). assert (Hh : 0 <= h) by apply sqrt_pos.
    destruct (clip_angle (Ratan2 y x) min_u max_u ltac:(lra)) as (u & Eu & Ru & _ & Fu). destruct (clip_angle (Ratan2 z h) min_v max_v Hv) as (v & Ev & Rv & Nv & _).
    cbn [sofZ spi smul R_ops R_trig] in *. rewrite Eu. cbn [bind]. rewrite Ev. cbn [bind]. exists u, v, (sp_pt u v). split; [reflexivity|]. split; [exact Ru|]. split; [exact Rv|]. split; [apply sp_eval|].
    intros s w q' Hs Hw Eq. rewrite sp_eval in Eq. apply Ok_inj in Eq. subst q'. apply edist_le_sq. unfold sp_pt. rewrite !fr_polar. fold x y z. fold h.
    assert (C1 : cos (u - Ratan2 y x) = 1). { destruct (Fu Hu) as [E1 E2]. rewrite cos_minus, E1, E2, cs1. reflexivity. }
    rewrite C1. pose proof (COS_bound (s - Ratan2 y x)) as [_ Cs]. set (cs := cos (s - Ratan2 y x)) in *. specialize (Nv w Hw).
    assert (Q : forall t, (r * cos t) ^ 2 - 2 * (r * cos t) * (h * 1) - 2 * (r * sin t) * z + r * sin t * (r * sin t) = r ^ 2 - 2 * r * (sqrt (h * h + z * z) * cos (t - Ratan2 z h))).
    { intros t. rewrite <- polar_dot. transitivity (r ^ 2 * (cos t * cos t + sin t * sin t) - 2 * r * (h * cos t + z * sin t)); [ring|rewrite cs1; ring]. }
    pose proof (Q v). pose proof (Q w). assert (Hc : 0 <= cos w) by (apply cos_ge_0; lra). assert (0 <= r * cos w * h) by (apply Rmult_le_pos; [apply Rmult_le_pos|]; assumption).
    assert (0 <= r * sqrt (h * h + z * z)) by (apply Rmult_le_pos; [exact Hr|apply sqrt_pos]). nra.
  Qed.
  Lemma sphere_round_trip min_u max_u min_v max_v u v q : 0 < r -> min_u <= u <= max_u -> - (PI / 2) <= v <= PI / 2 -> min_v <= v <= max_v -> sp_evaluate c u v = Ok q ->
    exists u' v', sp_inverse_evaluate c q min_u max_u min_v max_v = Ok ((u', v'), true) /\ min_u <= u' <= max_u /\ min_v <= v' <= max_v /\ sp_evaluate c u' v' = Ok q.
  Proof.
    intros Hr Hu Hvp Hv Eq. rewrite sp_eval in Eq. apply Ok_inj in Eq. subst q.
    unfold sp_inverse_evaluate. rewrite !along_pdot_r. fold o ax ay az. destruct (fr_along (r * cos v * cos u) (r * cos v * sin u) (r * sin v)) as (Ex & Ey & Ez).
    change (fr (r * cos v * cos u) (r * cos v * sin u) (r * sin v)) with (sp_pt u v) in Ex, Ey, Ez. rewrite Ex, Ey, Ez.
    assert (Hc : 0 <= cos v) by (apply cos_ge_0; lra). cbn [satan2 R_trig]. unfold shypot. cbn [ssqrt smul sadd R_ops]. rewrite sqrt_sq_abs by apply cs1. rewrite Rabs_right by (apply Rle_ge, Rmult_le_pos; lra).
    destruct (clip_angle (Ratan2 (r * cos v * sin u) (r * cos v * cos u)) min_u max_u ltac:(lra)) as (u' & Eu & Ru & Nu & _).
    destruct (clip_angle (Ratan2 (r * sin v) (r * cos v)) min_v max_v ltac:(lra)) as (v' & Ev & Rv & Nv & _).
    cbn [sofZ spi smul R_ops R_trig] in *. rewrite Eu. cbn [bind]. rewrite Ev. cbn [bind]. exists u', v'. split; [reflexivity|]. split; [exact Ru|]. split; [exact Rv|].
    rewrite sp_eval. f_equal. unfold sp_pt. destruct (atan2_of_polar r v Hr) as [Ec Es]. specialize (Nv v Hv). rewrite !cos_minus, Ec, Es, cs1, <- cos_minus in Nv.
    destruct (cos_diff_1 _ _ Nv) as [-> ->]. destruct Hc as [Hc|Hc].
    - assert (Hw : 0 < r * cos v) by nra. destruct (atan2_of_polar (r * cos v) u Hw) as [Fc Fs]. specialize (Nu u Hu). rewrite !cos_minus, Fc, Fs, cs1, <- cos_minus in Nu.
      destruct (cos_diff_1 _ _ Nu) as [-> ->]. reflexivity.
    - rewrite <- Hc, !Rmult_0_r, !Rmult_0_l. reflexivity.
  Qed.

  (** Torus *)
  Lemma torus_nearest p min_u max_u min_v max_v : 0 <= a <= r -> min_u + 2 * PI <= max_u -> min_v <= max_v ->
    exists u v q, to_inverse_evaluate c p min_u max_u min_v max_v = Ok ((u, v), true) /\ min_u <= u <= max_u /\ min_v <= v <= max_v /\
      to_evaluate c u v = Ok q /\
      forall x y q', min_u <= x <= max_u -> min_v <= y <= max_v -> to_evaluate c x y = Ok q' -> edist p q <= edist p q'.
  Proof.
    intros Hr Hu Hv. pose proof PI_RGT_0. unfold to_inverse_evaluate. rewrite !along_pdot_r. fold o ax ay az r. set (x := along o ax p). set (y := along o ay p). set (z := along o az p).
    cbn [satan2 R_trig]. unfold shypot. cbn [ssqrt smul sadd ssub R_ops]. set (h := sqrt (x * x + y * y)). assert (Hh : 0 <= h) by apply sqrt_pos.
    destruct (clip_angle (Ratan2 y x) min_u max_u ltac:(lra)) as (u & Eu & Ru & _ & Fu). destruct (clip_angle (Ratan2 z (h - r)) min_v max_v Hv) as (v & Ev & Rv & Nv & _).
    cbn [sofZ spi smul R_ops R_trig] in *. rewrite Eu. cbn [bind]. rewrite Ev. cbn [bind]. exists u, v, (to_pt u v). split; [reflexivity|]. split; [exact Ru|]. split; [exact Rv|]. split; [apply to_eval|].
    intros s w q' Hs Hw Eq. rewrite to_eval in Eq. apply Ok_inj in Eq. subst q'. apply edist_le_sq. unfold to_pt. rewrite !fr_polar. fold x y z. fold h.
    assert (C1 : cos (u - Ratan2 y x) = 1). { destruct (Fu Hu) as [E1 E2]. rewrite cos_minus, E1, E2, cs1. reflexivity. }
    rewrite C1. pose proof (COS_bound (s - Ratan2 y x)) as [_ Cs]. set (cs := cos (s - Ratan2 y x)) in *. specialize (Nv w Hw).
    set (g := h - r) in *.
    assert (Q : forall t, (r + a * cos t) ^ 2 - 2 * (r + a * cos t) * (h * 1) - 2 * (a * sin t) * z + a * sin t * (a * sin t)
      = r ^ 2 - 2 * r * h + a ^ 2 - 2 * a * (sqrt (g * g + z * z) * cos (t - Ratan2 z g))).
    { intros t. rewrite <- polar_dot. transitivity (r ^ 2 - 2 * r * h + a ^ 2 * (cos t * cos t + sin t * sin t) - 2 * a * (g * cos t + z * sin t)); [unfold g; ring|rewrite cs1; ring]. }
    pose proof (Q v). pose proof (Q w). pose proof (COS_bound w) as [Cw _]. assert (Hpos : 0 <= r + a * cos w) by nra.
    assert (0 <= (r + a * cos w) * h) by (apply Rmult_le_pos; assumption).
    assert (0 <= a * sqrt (g * g + z * z)) by (apply Rmult_le_pos; [lra|apply sqrt_pos]). nra.
  Qed.
  Lemma torus_round_trip min_u max_u min_v max_v u v q : 0 < a <= r -> min_u <= u <= max_u -> min_v <= v <= max_v -> to_evaluate c u v = Ok q ->
    exists u' v', to_inverse_evaluate c q min_u max_u min_v max_v = Ok ((u', v'), true) /\ min_u <= u' <= max_u /\ min_v <= v' <= max_v /\ to_evaluate c u' v' = Ok q.
  Proof.
    intros Hr Hu Hv Eq. rewrite to_eval in Eq. apply Ok_inj in Eq. subst q.
    unfold to_inverse_evaluate. rewrite !along_pdot_r. fold o ax ay az r. destruct (fr_along ((r + a * cos v) * cos u) ((r + a * cos v) * sin u) (a * sin v)) as (Ex & Ey & Ez).
    change (fr ((r + a * cos v) * cos u) ((r + a * cos v) * sin u) (a * sin v)) with (to_pt u v) in Ex, Ey, Ez. rewrite Ex, Ey, Ez. set (w := r + a * cos v).
    pose proof (COS_bound v) as [Cv _]. assert (Hw : 0 <= w) by (unfold w; nra).
    cbn [satan2 R_trig]. unfold shypot. cbn [ssqrt smul sadd ssub R_ops]. rewrite sqrt_sq_abs by apply cs1. rewrite Rabs_right by lra.
    replace (w - r) with (a * cos v) by (unfold w; ring).
    destruct (clip_angle (Ratan2 (w * sin u) (w * cos u)) min_u max_u ltac:(lra)) as (u' & Eu & Ru & Nu & _).
    destruct (clip_angle (Ratan2 (a * sin v) (a * cos v)) min_v max_v ltac:(lra)) as (v' & Ev & Rv & Nv & _).
    cbn [sofZ spi smul R_ops R_trig] in *. rewrite Eu. cbn [bind]. rewrite Ev. cbn [bind]. exists u', v'. split; [reflexivity|]. split; [exact Ru|]. split; [exact Rv|].
    rewrite to_eval. f_equal. unfold to_pt. destruct (atan2_of_polar a v ltac:(lra)) as [Ec Es]. specialize (Nv v Hv). rewrite !cos_minus, Ec, Es, cs1, <- cos_minus in Nv.
    destruct (cos_diff_1 _ _ Nv) as [-> ->]. fold w. destruct Hw as [Hw|Hw].
    - destruct (atan2_of_polar w u Hw) as [Fc Fs]. specialize (Nu u Hu). rewrite !cos_minus, Fc, Fs, cs1, <- cos_minus in Nu.
      destruct (cos_diff_1 _ _ Nu) as [-> ->]. reflexivity.
    - rewrite <- Hw, !Rmult_0_l. reflexivity.
  Qed.
End Rot.
