(** Circle.h, Ellipse.h, Plane.h, Cylinder.h, Cone.h, Sphere.h, Torus.h.

    [TrigOps T] lists the functions of <cmath> they call; M_PI is exactly pi.  Frames are given by their rows.
    Members that only hold or return a bound are record fields. *)
From Coq Require Import QArith Reals.
From Verif Require Import Monad Scalar ModelCurve ModelPatchBase.
Local Open Scope Z_scope.

Class TrigOps (T : Type) := {
  scos : T -> T;            (* std::cos *)
  ssin : T -> T;            (* std::sin *)
  satan2 : T -> T -> T;     (* std::atan2(y, x); on x < 0, y = 0 it is pi (positive zero) *)
  spi : T;                  (* M_PI *)
}.

(** The four bounds kept by the patch classes (e.g. Plane.h:150-153). *)
Record bounds4 (T : Type) := { b_ulo : T; b_uhi : T; b_vlo : T; b_vhi : T }.
Arguments b_ulo {T}. Arguments b_uhi {T}. Arguments b_vlo {T}. Arguments b_vhi {T}.

Section Primitive.
  Context {T P : Type} {SO : ScalarOps T} {TO : TrigOps T} {V : PointOps T P}.
  Local Open Scope scal_scope.

  (** std::round: half away from zero *)
  Definition sround (x : T) : Z :=
    let half := sofQ (1 # 2) in
    if x <? s0 then Z.opp (sfloor (- x + half)) else sfloor (x + half).
  (** std::hypot *)
  Definition shypot (x y : T) : T := ssqrt (x * x + y * y).
  Definition two_pi : T := sofZ 2 * spi.

  (** numeric_limits<Scalar>::epsilon() * 10, the TOL of every initialize *)
  Definition prim_tol : T := seps * sofZ 10.
  (** Circle.h:182-186 update_periodicity, Ellipse.h:238-242, Cylinder.h:102-103, Cone.h:122-123, Sphere.h:120-121,
      Torus.h:125-128, RevolutionPatch.h:191-192 *)
  Definition winding_flag (lower upper : T) : res bool :=
    do q <- ddiv (upper - lower) (sofZ 2 * spi);
    let rounded_winding := sofZ (sround q) * sofZ 2 * spi in
    Ok (sabs (upper - lower - rounded_winding) <? prim_tol).

  (** The assertions on the rows of a frame (Circle.h:47-49; Cylinder.h:93-98, Cone.h:113-118, Sphere.h:111-116,
      Torus.h:116-121) *)
  Definition frame2_ok (a b : P) : bool :=
    (sabs (sqnorm a - s1) <? prim_tol) && (sabs (sqnorm b - s1) <? prim_tol) && (sabs (pdot a b) <? prim_tol).
  Definition frame3_ok (a b c : P) : bool :=
    (sabs (sqnorm a - s1) <? prim_tol) && (sabs (sqnorm b - s1) <? prim_tol) && (sabs (sqnorm c - s1) <? prim_tol) &&
    (sabs (pdot a b) <? prim_tol) && (sabs (pdot b c) <? prim_tol) && (sabs (pdot c a) <? prim_tol).

  (** "while (t < lower) t += 2 * M_PI" (Circle.h:105-107, Ellipse.h:170-172) on explicit fuel; out of fuel is [Undef]. *)
  Fixpoint raise (fuel : nat) (t lower : T) : res T :=
    if t <? lower then match fuel with O => Undef | S fuel => raise fuel (t + sofZ 2 * spi) lower end else Ok t.

  (** ** Circle.h:189-193 members *)
  Record circle := { ci_center : P; ci_x : P; ci_y : P; ci_radius : T; ci_lower : T; ci_upper : T; ci_periodic : bool }.

  (** Circle.h:44-52 initialize *)
  Definition ci_initialize (c : circle) : res circle :=
    do _ <- assert_ (frame2_ok (ci_x c) (ci_y c));
    do _ <- assert_ (ci_lower c <=? ci_upper c);
    do per <- winding_flag (ci_lower c) (ci_upper c);
    Ok {| ci_center := ci_center c; ci_x := ci_x c; ci_y := ci_y c; ci_radius := ci_radius c; ci_lower := ci_lower c;
          ci_upper := ci_upper c; ci_periodic := per |}.
  (** Circle.h:75-78 evaluate *)
  Definition ci_evaluate (c : circle) (t : T) : res P :=
    Ok (ci_center c + ci_radius c *: (scos t *: ci_x c + ssin t *: ci_y c))%P.
  (** Circle.h:85-88 evaluate_derivative *)
  Definition ci_evaluate_derivative (c : circle) (t : T) : res P :=
    Ok (ci_radius c *: (ssin t *: (- s1 *: ci_x c) + scos t *: ci_y c))%P.
  (** Circle.h:90-93 evaluate_2nd_derivative *)
  Definition ci_evaluate_2nd_derivative (c : circle) (t : T) : res P :=
    Ok (ci_radius c *: (scos t *: (- s1 *: ci_x c) - ssin t *: ci_y c))%P.
  (** Circle.h:109-117, Ellipse.h:173-181: "if (t > upper)" take the nearer end *)
  Definition end_or (eval : T -> res P) (p : P) (lower upper t : T) : res T :=
    if upper <? t then
      do a <- eval lower; do b <- eval upper;
      let d1 := sqnorm (a - p)%P in
      let d2 := sqnorm (b - p)%P in
      if d1 <? d2 then Ok lower else Ok upper
    else Ok t.
  (** Circle.h:95-119 approximate_inverse_evaluate (the level is ignored) *)
  Definition ci_approximate_inverse_evaluate (fuel : nat) (c : circle) (p : P) (lower upper : T) : res T :=
    do _ <- assert_ (lower <=? upper);
    let x := pdot (ci_x c) (p - ci_center c)%P in
    let y := pdot (ci_y c) (p - ci_center c)%P in
    do t <- raise fuel (satan2 y x) lower;
    end_or (ci_evaluate c) p lower upper t.
  (** Circle.h:80-83 inverse_evaluate *)
  Definition ci_inverse_evaluate (fuel : nat) (c : circle) (p : P) : res T :=
    ci_approximate_inverse_evaluate fuel c p (ci_lower c) (ci_upper c).
  (** Circle.h:68 in_domain *)
  Definition ci_in_domain (c : circle) (t : T) : bool := (ci_lower c <=? t) && (t <=? ci_upper c).
  Definition ci_ops (c : circle) : curve_ops T P :=
    {| c_lower := ci_lower c; c_upper := ci_upper c; c_eval := ci_evaluate c; c_d1 := ci_evaluate_derivative c;
       c_d2 := ci_evaluate_2nd_derivative c |}.

  (** ** Ellipse.h:245-250 members *)
  Record ellipse := { el_center : P; el_x : P; el_y : P; el_major : T; el_minor : T; el_lower : T; el_upper : T; el_periodic : bool }.

  (** Ellipse.h:45-54 initialize (the rows of the frame need not be unit vectors) *)
  Definition el_initialize (c : ellipse) : res ellipse :=
    do _ <- assert_ (s0 <? el_major c);
    do _ <- assert_ (s0 <? el_minor c);
    do _ <- assert_ (el_minor c <=? el_major c);
    do _ <- assert_ (sabs (pdot (el_x c) (el_y c)) <? prim_tol);
    do _ <- assert_ (el_lower c <=? el_upper c);
    do per <- winding_flag (el_lower c) (el_upper c);
    Ok {| el_center := el_center c; el_x := el_x c; el_y := el_y c; el_major := el_major c; el_minor := el_minor c;
          el_lower := el_lower c; el_upper := el_upper c; el_periodic := per |}.
  (** Ellipse.h:86-90 evaluate *)
  Definition el_evaluate (c : ellipse) (t : T) : res P :=
    Ok (el_center c + el_major c *: (scos t *: el_x c) + el_minor c *: (ssin t *: el_y c))%P.
  (** Ellipse.h:97-101 evaluate_derivative *)
  Definition el_evaluate_derivative (c : ellipse) (t : T) : res P :=
    Ok (ssin t *: (el_major c *: (- s1 *: el_x c)) + scos t *: (el_minor c *: el_y c))%P.
  (** Ellipse.h:103-107 evaluate_2nd_derivative *)
  Definition el_evaluate_2nd_derivative (c : ellipse) (t : T) : res P :=
    Ok (scos t *: (- el_major c *: el_x c) - ssin t *: (el_minor c *: el_y c))%P.
  Definition el_ops (c : ellipse) : curve_ops T P :=
    {| c_lower := el_lower c; c_upper := el_upper c; c_eval := el_evaluate c; c_d1 := el_evaluate_derivative c;
       c_d2 := el_evaluate_2nd_derivative c |}.
  (** Ellipse.h:135-161: body of the while loop; the state is (t, dt) *)
  Definition el_step (c : ellipse) (p2 axis_1 axis_2 : P) (t : T) : res (T * T) :=
    do q <- el_evaluate c t;
    do k <- evaluate_curvature (el_ops c) t;
    let sn := sqnorm k in
    do _ <- assert_ (prim_tol <? sn);
    do r <- ddiv s1 (ssqrt sn);
    do k' <- pdivs k sn;
    let k := (q + k')%P in
    let x := pdot (q - el_center c)%P axis_1 in
    let y := pdot (q - el_center c)%P axis_2 in
    let qx := pdot (q - k)%P axis_1 in
    let qy := pdot (q - k)%P axis_2 in
    let px := pdot (p2 - k)%P axis_1 in
    let py := pdot (p2 - k)%P axis_2 in
    let theta := satan2 (qx * py - qy * px) (qx * px + qy * py) in
    let dc := r * theta in
    (* a negative radicand is NaN in C++; here its root is 0 and the division gives NonFinite *)
    do dt <- ddiv dc (ssqrt (el_major c * el_major c + el_minor c * el_minor c - x * x - y * y));
    let t := t + dt in
    let t := if t <? s0 then s0 else if spi / sofZ 2 <? t then spi / sofZ 2 else t in
    Ok (t, dt).
  (** Ellipse.h:134-162: at most [n] further iterations *)
  Fixpoint el_loop (n : nat) (c : ellipse) (p2 axis_1 axis_2 : P) (t dt : T) : res T :=
    match n with
    | O => Ok t
    | S n =>
        if prim_tol <? sabs dt then
          do '(t, dt) <- el_step c p2 axis_1 axis_2 t; el_loop n c p2 axis_1 axis_2 t dt
        else Ok t
    end.
  (** Ellipse.h:109-184 approximate_inverse_evaluate (the level is ignored) *)
  Definition el_approximate_inverse_evaluate (fuel : nat) (c : ellipse) (p : P) (lower upper : T) : res T :=
    do _ <- assert_ (lower <=? upper);
    do axis_1 <- pdivs (el_x c) (pnorm (el_x c));
    do axis_2 <- pdivs (el_y c) (pnorm (el_y c));
    let flip_x := pdot (p - el_center c)%P axis_1 <? s0 in
    let flip_y := pdot (p - el_center c)%P axis_2 <? s0 in
    let p2 := p in
    let p2 := if flip_x then (p2 - (sofZ 2 * pdot (p - el_center c)%P axis_1)%S *: axis_1)%P else p2 in
    let p2 := if flip_y then (p2 - (sofZ 2 * pdot (p - el_center c)%P axis_2)%S *: axis_2)%P else p2 in
    do t <- el_loop 100 c p2 axis_1 axis_2 (spi / sofZ 4) snummax;
    let t := if flip_x then spi - t else t in
    let t := if flip_y then sofZ 2 * spi - t else t in
    do t <- raise fuel t lower;
    end_or (el_evaluate c) p lower upper t.

  (** Ellipse.h:92-95 inverse_evaluate *)
  Definition el_inverse_evaluate (fuel : nat) (c : ellipse) (p : P) : res T :=
    el_approximate_inverse_evaluate fuel c p (el_lower c) (el_upper c).

  (** ** Plane.h:148-153 members *)
  Record plane := { pl_location : P; pl_x : P; pl_y : P; pl_bounds : bounds4 T; pl_periodic_u : bool; pl_periodic_v : bool }.
  (** The assertions "m_u_upper >= m_u_lower", "m_v_upper >= m_v_lower" of every patch *)
  Definition bounds_ok (b : bounds4 T) : bool := (b_ulo b <=? b_uhi b) && (b_vlo b <=? b_vhi b).

  (** Plane.h:75-85 initialize *)
  Definition pl_initialize (c : plane) : res plane :=
    do _ <- assert_ (prim_tol <? sqnorm (pl_x c));
    do _ <- assert_ (prim_tol <? sqnorm (pl_y c));
    do _ <- assert_ (bounds_ok (pl_bounds c));
    Ok {| pl_location := pl_location c; pl_x := pl_x c; pl_y := pl_y c; pl_bounds := pl_bounds c;
          pl_periodic_u := false; pl_periodic_v := false |}.
  (** Plane.h:43-46 evaluate; 48-56 derivatives *)
  Definition pl_evaluate (c : plane) (u v : T) : res P := Ok (pl_location c + u *: pl_x c + v *: pl_y c)%P.
  Definition pl_du (c : plane) (u v : T) : res P := Ok (pl_x c).
  Definition pl_dv (c : plane) (u v : T) : res P := Ok (pl_y c).
  Definition pl_duu (c : plane) (u v : T) : res P := Ok p0.
  Definition pl_dvv (c : plane) (u v : T) : res P := Ok p0.
  Definition pl_duv (c : plane) (u v : T) : res P := Ok p0.
  (** Plane.h:58-73 inverse_evaluate *)
  Definition pl_inverse_evaluate (c : plane) (p : P) (min_u max_u min_v max_v : T) : res ((T * T) * bool) :=
    do u <- ddiv (pdot (p - pl_location c)%P (pl_x c)) (sqnorm (pl_x c));
    do v <- ddiv (pdot (p - pl_location c)%P (pl_y c)) (sqnorm (pl_y c));
    Ok ((smax min_u (smin u max_u), smax min_v (smin v max_v)), true).
  Definition pl_ops (c : plane) : patch_ops T P :=
    {| s_ulo := b_ulo (pl_bounds c); s_uhi := b_uhi (pl_bounds c); s_vlo := b_vlo (pl_bounds c); s_vhi := b_vhi (pl_bounds c);
       s_eval := pl_evaluate c; s_du := pl_du c; s_dv := pl_dv c; s_duu := pl_duu c; s_dvv := pl_dvv c; s_duv := pl_duv c |}.

  (** ** Members of the patches with a frame of three rows: Cylinder.h:168-174, Cone.h:188-195, Sphere.h:190-196,
      Torus.h:192-199.  [rv_a] is the angle of a cone and the minor radius of a torus; the others do not have it. *)
  Record rotsurf := { rv_location : P; rv_x : P; rv_y : P; rv_z : P; rv_r : T; rv_a : T; rv_bounds : bounds4 T;
    rv_periodic_u : bool; rv_periodic_v : bool }.
  Definition rv_with_periodic (c : rotsurf) (pu pv : bool) : rotsurf :=
    {| rv_location := rv_location c; rv_x := rv_x c; rv_y := rv_y c; rv_z := rv_z c; rv_r := rv_r c; rv_a := rv_a c;
       rv_bounds := rv_bounds c; rv_periodic_u := pu; rv_periodic_v := pv |}.
  (** The assertions of their initialize *)
  Definition rv_check (c : rotsurf) : res unit :=
    do _ <- assert_ (frame3_ok (rv_x c) (rv_y c) (rv_z c));
    assert_ (bounds_ok (rv_bounds c)).

  (** Cylinder.h:90-105, Cone.h:110-125 initialize *)
  Definition cy_initialize (c : rotsurf) : res rotsurf :=
    do _ <- rv_check c;
    do pu <- winding_flag (b_ulo (rv_bounds c)) (b_uhi (rv_bounds c));
    Ok (rv_with_periodic c pu false).
  (** Cylinder.h:49-53 evaluate *)
  Definition cy_evaluate (c : rotsurf) (u v : T) : res P :=
    Ok (rv_location c + rv_r c *: (scos u *: rv_x c) + rv_r c *: (ssin u *: rv_y c) + v *: rv_z c)%P.
  (** Cylinder.h:55-69 derivatives *)
  Definition cy_du (c : rotsurf) (u v : T) : res P :=
    Ok (rv_r c *: (ssin u *: (- s1 *: rv_x c)) + rv_r c *: (scos u *: rv_y c))%P.
  Definition cy_dv (c : rotsurf) (u v : T) : res P := Ok (rv_z c).
  Definition cy_duu (c : rotsurf) (u v : T) : res P :=
    Ok (rv_r c *: (scos u *: (- s1 *: rv_x c)) - rv_r c *: (ssin u *: rv_y c))%P.
  Definition cy_dvv (c : rotsurf) (u v : T) : res P := Ok p0.
  Definition cy_duv (c : rotsurf) (u v : T) : res P := Ok p0.
  (** Cylinder.h:71-88 inverse_evaluate *)
  Definition cy_inverse_evaluate (c : rotsurf) (p : P) (min_u max_u min_v max_v : T) : res ((T * T) * bool) :=
    let x := pdot (p - rv_location c)%P (rv_x c) in
    let y := pdot (p - rv_location c)%P (rv_y c) in
    let z := pdot (p - rv_location c)%P (rv_z c) in
    let v := smax min_v (smin z max_v) in
    do u <- clip_periodic_parameter (satan2 y x) min_u max_u (sofZ 2 * spi);
    Ok ((u, v), true).

  (** Cone.h:52-58 evaluate *)
  Definition co_evaluate (c : rotsurf) (u v : T) : res P :=
    Ok (rv_location c + (rv_r c + v * ssin (rv_a c))%S *: (scos u *: rv_x c + ssin u *: rv_y c)
        + scos (rv_a c) *: (v *: rv_z c))%P.
  (** Cone.h:60-83 derivatives *)
  Definition co_du (c : rotsurf) (u v : T) : res P :=
    Ok ((rv_r c + v * ssin (rv_a c))%S *: (ssin u *: (- s1 *: rv_x c) + scos u *: rv_y c))%P.
  Definition co_dv (c : rotsurf) (u v : T) : res P :=
    Ok (ssin (rv_a c) *: (scos u *: rv_x c + ssin u *: rv_y c) + scos (rv_a c) *: rv_z c)%P.
  Definition co_duu (c : rotsurf) (u v : T) : res P :=
    Ok ((rv_r c + v * ssin (rv_a c))%S *: (scos u *: (- s1 *: rv_x c) - ssin u *: rv_y c))%P.
  Definition co_dvv (c : rotsurf) (u v : T) : res P := Ok p0.
  Definition co_duv (c : rotsurf) (u v : T) : res P :=
    Ok (ssin (rv_a c) *: (ssin u *: (- s1 *: rv_x c) + scos u *: rv_y c))%P.
  (** Cone.h:85-108 inverse_evaluate *)
  Definition co_inverse_evaluate (c : rotsurf) (p : P) (min_u max_u min_v max_v : T) : res ((T * T) * bool) :=
    let x := pdot (p - rv_location c)%P (rv_x c) in
    let y := pdot (p - rv_location c)%P (rv_y c) in
    let u := satan2 y x in
    let dir := (scos u *: rv_x c + ssin u *: rv_y c)%P in
    let q := (rv_location c + rv_r c *: dir)%P in
    let d := (ssin (rv_a c) *: dir + scos (rv_a c) *: rv_z c)%P in
    do _ <- assert_ (sabs (pnorm d - s1) <? sofQ (1 # (10 ^ 6)%positive));
    let v := pdot (p - q)%P d in
    let v := smax min_v (smin v max_v) in
    do u <- clip_periodic_parameter u min_u max_u (sofZ 2 * spi);
    Ok ((u, v), true).

  (** Sphere.h:108-129 initialize *)
  Definition sp_initialize (c : rotsurf) : res rotsurf :=
    do _ <- rv_check c;
    do pu <- winding_flag (b_ulo (rv_bounds c)) (b_uhi (rv_bounds c));
    let pv := (sabs (b_vlo (rv_bounds c) + spi / sofZ 2) <? prim_tol) && (sabs (b_vhi (rv_bounds c) - spi / sofZ 2) <? prim_tol) in
    Ok (rv_with_periodic c pu pv).
  (** Sphere.h:49-55 evaluate *)
  Definition sp_evaluate (c : rotsurf) (u v : T) : res P :=
    Ok (rv_location c + (rv_r c * scos v)%S *: (scos u *: rv_x c + ssin u *: rv_y c) + (rv_r c * ssin v)%S *: rv_z c)%P.
  (** Sphere.h:57-87 derivatives *)
  Definition sp_du (c : rotsurf) (u v : T) : res P :=
    Ok ((rv_r c * scos v)%S *: ((- ssin u)%S *: rv_x c + scos u *: rv_y c))%P.
  Definition sp_dv (c : rotsurf) (u v : T) : res P :=
    Ok ((- rv_r c * ssin v)%S *: (scos u *: rv_x c + ssin u *: rv_y c) + (rv_r c * scos v)%S *: rv_z c)%P.
  Definition sp_duu (c : rotsurf) (u v : T) : res P :=
    Ok ((rv_r c * scos v)%S *: ((- scos u)%S *: rv_x c - ssin u *: rv_y c))%P.
  Definition sp_dvv (c : rotsurf) (u v : T) : res P :=
    Ok ((- rv_r c * scos v)%S *: (scos u *: rv_x c + ssin u *: rv_y c) - (rv_r c * ssin v)%S *: rv_z c)%P.
  Definition sp_duv (c : rotsurf) (u v : T) : res P :=
    Ok ((- rv_r c * ssin v)%S *: ((- ssin u)%S *: rv_x c + scos u *: rv_y c))%P.
  (** Sphere.h:89-106 inverse_evaluate *)
  Definition sp_inverse_evaluate (c : rotsurf) (p : P) (min_u max_u min_v max_v : T) : res ((T * T) * bool) :=
    let x := pdot (p - rv_location c)%P (rv_x c) in
    let y := pdot (p - rv_location c)%P (rv_y c) in
    let z := pdot (p - rv_location c)%P (rv_z c) in
    do u <- clip_periodic_parameter (satan2 y x) min_u max_u (sofZ 2 * spi);
    do v <- clip_periodic_parameter (satan2 z (shypot x y)) min_v max_v (sofZ 2 * spi);
    Ok ((u, v), true).

  (** Torus.h:113-129 initialize *)
  Definition to_initialize (c : rotsurf) : res rotsurf :=
    do _ <- rv_check c;
    do pu <- winding_flag (b_ulo (rv_bounds c)) (b_uhi (rv_bounds c));
    do pv <- winding_flag (b_vlo (rv_bounds c)) (b_vhi (rv_bounds c));
    Ok (rv_with_periodic c pu pv).
  (** Torus.h:52-58 evaluate *)
  Definition to_evaluate (c : rotsurf) (u v : T) : res P :=
    Ok (rv_location c + (rv_r c + rv_a c * scos v)%S *: (scos u *: rv_x c + ssin u *: rv_y c) + (rv_a c * ssin v)%S *: rv_z c)%P.
  (** Torus.h:60-90 derivatives *)
  Definition to_du (c : rotsurf) (u v : T) : res P :=
    Ok ((rv_r c + rv_a c * scos v)%S *: ((- ssin u)%S *: rv_x c + scos u *: rv_y c))%P.
  Definition to_dv (c : rotsurf) (u v : T) : res P :=
    Ok ((- rv_a c * ssin v)%S *: (scos u *: rv_x c + ssin u *: rv_y c) + (rv_a c * scos v)%S *: rv_z c)%P.
  Definition to_duu (c : rotsurf) (u v : T) : res P :=
    Ok ((rv_r c + rv_a c * scos v)%S *: ((- scos u)%S *: rv_x c - ssin u *: rv_y c))%P.
  Definition to_dvv (c : rotsurf) (u v : T) : res P :=
    Ok ((- rv_a c * scos v)%S *: (scos u *: rv_x c + ssin u *: rv_y c) - (rv_a c * ssin v)%S *: rv_z c)%P.
  Definition to_duv (c : rotsurf) (u v : T) : res P :=
    Ok ((rv_a c * ssin v)%S *: (ssin u *: rv_x c - scos u *: rv_y c))%P.
  (** Torus.h:92-111 inverse_evaluate *)
  Definition to_inverse_evaluate (c : rotsurf) (p : P) (min_u max_u min_v max_v : T) : res ((T * T) * bool) :=
    let x := pdot (p - rv_location c)%P (rv_x c) in
    let y := pdot (p - rv_location c)%P (rv_y c) in
    let z := pdot (p - rv_location c)%P (rv_z c) in
    let w := shypot x y - rv_r c in
    do u <- clip_periodic_parameter (satan2 y x) min_u max_u (sofZ 2 * spi);
    do v <- clip_periodic_parameter (satan2 z w) min_v max_v (sofZ 2 * spi);
    Ok ((u, v), true).
  (** The virtual functions of a rotational patch, given its evaluate and derivatives. *)
  Definition rv_ops (c : rotsurf) (e du dv duu dvv duv : rotsurf -> T -> T -> res P) : patch_ops T P :=
    {| s_ulo := b_ulo (rv_bounds c); s_uhi := b_uhi (rv_bounds c); s_vlo := b_vlo (rv_bounds c); s_vhi := b_vhi (rv_bounds c);
       s_eval := e c; s_du := du c; s_dv := dv c; s_duu := duu c; s_dvv := dvv c; s_duv := duv c |}.
End Primitive.
Arguments circle : clear implicits.
Arguments ellipse : clear implicits.
Arguments plane : clear implicits.
Arguments rotsurf : clear implicits.

(** std::atan2 over the reals. *)
Definition Ratan2 (y x : R) : R :=
  if Rlt_dec 0 x then atan (y / x)
  else if Rlt_dec x 0 then (if Rle_dec 0 y then atan (y / x) + PI else atan (y / x) - PI)
  else if Rlt_dec 0 y then PI / 2 else if Rlt_dec y 0 then - (PI / 2) else 0.
Global Instance R_trig : TrigOps R := { scos := cos; ssin := sin; satan2 := Ratan2; spi := PI }.
