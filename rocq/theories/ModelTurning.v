(** get_turning_angle of the curve classes.  The curve has dimension [d]; all functions but two (Bezier degrees 0 and 1)
    throw unless it is 2.  Ellipse.h has no version of its own and uses the one of CurveBase.h. *)
From Coq Require Import QArith.
From Verif Require Import Monad Scalar ModelCurve ModelBezier ModelBSpline ModelRational ModelLine ModelPrimitive ModelPatch.
Local Open Scope Z_scope.

Section Turning.
  Context {T : Type} {SO : ScalarOps T} {TO : TrigOps T} {d : nat}.
  Local Open Scope scal_scope.

  (** std::atan2(v0[0] * v1[1] - v0[1] * v1[0], v0[0] * v1[0] + v0[1] * v1[1]) (CurveBase.h:128, Bezier.h:153, 650, 887-888) *)
  Definition turn (v0 v1 : vec T d) : T :=
    satan2 (coord d 0 v0 * coord d 1 v1 - coord d 1 v0 * coord d 0 v1) (coord d 0 v0 * coord d 0 v1 + coord d 1 v0 * coord d 1 v1).

  (** "(t1 - t0) * 1e-3" (CurveBase.h:119, 124) *)
  Definition nudge (t0 t1 : T) : T := (t1 - t0) * sofQ (1 # (10 ^ 3)%positive)%Q.
  (** CurveBase.h:118-121 the first retry loop, [n] rounds left; the state is (t0, d0) *)
  Fixpoint retry_start (n : nat) (d1 : T -> res (vec T d)) (t1 t0 : T) (d0 : vec T d) : res (T * vec T d) :=
    match n with
    | O => Ok (t0, d0)
    | S n =>
        if pnorm d0 <? seps then
          let t0 := t0 + nudge t0 t1 in
          do d0 <- d1 t0;
          retry_start n d1 t1 t0 d0
        else Ok (t0, d0)
    end.
  (** CurveBase.h:123-126 the second one; the state is (t1, d1) *)
  Fixpoint retry_end (n : nat) (d1 : T -> res (vec T d)) (t0 t1 : T) (e1 : vec T d) : res (T * vec T d) :=
    match n with
    | O => Ok (t1, e1)
    | S n =>
        if pnorm e1 <? seps then
          let t1 := t1 - nudge t0 t1 in
          do e1 <- d1 t1;
          retry_end n d1 t0 t1 e1
        else Ok (t1, e1)
    end.
  (** CurveBase.h:107-129 get_turning_angle; [d1] is evaluate_derivative *)
  Definition base_turning_angle (d1 : T -> res (vec T d)) (t0 t1 : T) : res T :=
    if negb (d =? 2)%nat then Throw runtime_error
    else
      do a <- d1 t0;
      do b <- d1 t1;
      do '(t0, a) <- retry_start 10 d1 t1 t0 a;
      do '(t1, b) <- retry_end 10 d1 t0 t1 b;
      Ok (turn a b).

  (** Bezier.h:149-155 the sum of the exterior angles of a control polygon *)
  Definition polygon_turning (pts : list (vec T d)) : res T :=
    for_up 1 (zlen pts - 1) (fun i theta =>
      do p <- get pts (i - 1)%Z;
      do q <- get pts i;
      do r <- get pts (i + 1)%Z;
      Ok (theta + turn (q - p)%P (r - q)%P)) s0.
  (** Bezier.h:141-156 (generic class) *)
  Definition bz_turning_angle (c : bezier (vec T d)) (t0 t1 : T) : res T :=
    if negb (d =? 2)%nat then Throw invalid_setting_error
    else do segment <- bz_subcurve c t0 t1; polygon_turning (bz_pts segment).
  (** Bezier.h:458 (degree 0), 527 (degree 1) *)
  Definition bz01_turning_angle (c : bezier (vec T d)) (t0 t1 : T) : res T := Ok s0.
  (** Bezier.h:642-651 (degree 2) *)
  Definition bz2_turning_angle (c : bezier (vec T d)) (t0 t1 : T) : res T :=
    if negb (d =? 2)%nat then Throw invalid_setting_error
    else
      do v0 <- bz2_evaluate_derivative c t0;
      do v1 <- bz2_evaluate_derivative c t1;
      Ok (turn v0 v1).
  (** Bezier.h:874-889 (degree 3) *)
  Definition bz3_turning_angle (c : bezier (vec T d)) (t0 t1 : T) : res T :=
    if negb (d =? 2)%nat then Throw invalid_setting_error
    else
      do piece <- bz3_subcurve c t0 t1;
      do p0 <- get (bz_pts piece) 0%Z;
      do p1 <- get (bz_pts piece) 1%Z;
      do p2 <- get (bz_pts piece) 2%Z;
      do p3 <- get (bz_pts piece) 3%Z;
      let v0 := (p1 - p0)%P in
      let v1 := (p2 - p1)%P in
      let v2 := (p3 - p2)%P in
      Ok (turn v0 v1 + turn v1 v2).
  (** The version picked by the template degree [tdeg]; any other number is the generic class. *)
  Definition bzt_turning_angle (tdeg : Z) : bezier (vec T d) -> T -> T -> res T :=
    bzt tdeg bz01_turning_angle bz01_turning_angle bz2_turning_angle bz3_turning_angle bz_turning_angle.

  (** RationalBezier.h:127-142 and NURBS.h:194-209: [n] is the number of control points *)
  Definition sampled_turning_angle (d1 : T -> res (vec T d)) (n : Z) (t0 t1 : T) : res T :=
    if negb (d =? 2)%nat then Throw invalid_setting_error
    else
      do '(theta, _) <- for_up 1 n (fun i st =>
        let '(theta, t_prev) := st in
        do q <- ddiv (sofZ i) (sofZ (n - 1));
        let t_curr := t0 + q * (t1 - t0) in
        do a <- base_turning_angle d1 t_prev t_curr;
        Ok (theta + a, t_curr)) (s0, t0);
      Ok theta.
  Definition rb_turning_angle (c : rbezier T d) (t0 t1 : T) : res T :=
    sampled_turning_angle (rb_evaluate_derivative c) (zlen (rb_pts c)) t0 t1.
  Definition nb_turning_angle (c : nurbs T d) (t0 t1 : T) : res T :=
    sampled_turning_angle (nb_evaluate_derivative c) (zlen (nb_pts c)) t0 t1.

  (** BSpline.h:209-223: the loop over the Bezier pieces *)
  Definition pieces_turning (turning : bezier (vec T d) -> T -> T -> res T) (segs : list (bezier (vec T d))) (bounds : list T)
      (t0 t1 : T) : res T :=
    for_up 0 (zlen segs) (fun i theta =>
      do t_min <- get bounds i;
      do t_max <- get bounds (i + 1)%Z;
      if (t_max <? t0) || (t1 <? t_min) then Ok theta
      else
        do nl <- ddiv (t0 - t_min) (t_max - t_min);
        do nu <- ddiv (t1 - t_min) (t_max - t_min);
        do seg <- get segs i;
        do a <- turning seg (smax nl s0) (smin nu s1);
        Ok (theta + a)) s0.
  (** BSpline.h:197-226; [tdeg] is the template degree *)
  Definition bs_turning_angle (tdeg : Z) (c : bspline T (vec T d)) (t0 t1 : T) : res T :=
    if negb (d =? 2)%nat then Throw runtime_error
    else
      do '(segs, bounds) <- bs_convert_to_Bezier c;
      pieces_turning (bzt_turning_angle tdeg) segs bounds t0 t1.

  (** Line.h:129-137 *)
  Definition ln_turning_angle (c : line T (vec T d)) (t0 t1 : T) : res T :=
    if negb (d =? 2)%nat then Throw runtime_error else Ok s0.
  (** Circle.h:172-179 *)
  Definition ci_turning_angle (c : circle T (vec T d)) (t0 t1 : T) : res T :=
    if negb (d =? 2)%nat then Throw runtime_error
    else do _ <- assert_ (t0 <=? t1); Ok (t1 - t0).
  (** Ellipse.h: inherited *)
  Definition el_turning_angle (c : ellipse T (vec T d)) (t0 t1 : T) : res T := base_turning_angle (el_evaluate_derivative c) t0 t1.
End Turning.
