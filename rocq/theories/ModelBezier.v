(** Model of /repo/include/nanospline/Bezier.h and BezierBase.h. *)
From Coq Require Import QArith.
From Verif Require Import Monad Scalar ModelCurve.
Local Open Scope Z_scope.

Section Bezier.
  Context {T P : Type} {SO : ScalarOps T} {V : PointOps T P}.
  Local Open Scope scal_scope.

  (** BezierBase.h:119 m_control_points, CurveBase.h:216 m_periodic.  The same record is used for
      the generic class and for the specialised classes of degree 0..3. *)
  Record bezier := { bz_pts : list P; bz_periodic : bool }.

  (** BezierBase.h:109-112 get_degree.  (For a fixed [_degree] the matrix has [_degree+1] rows.) *)
  Definition bz_degree (c : bezier) : Z := (zlen (bz_pts c) - 1)%Z.

  (** BezierBase.h:114-116 get_domain_lower_bound / get_domain_upper_bound. *)
  Definition bz_lower : T := s0.
  Definition bz_upper : T := s1.

  (** BezierBase.h:29-35 in_domain. *)
  Definition bz_in_domain (t : T) : bool := (s0 - seps <=? t) && (t <=? s1 + seps).

  (** BezierBase.h:96-107 set_control_points on a default constructed curve. *)
  Definition mk_bezier (pts : list P) : bezier := {| bz_pts := pts; bz_periodic := false |}.

  (** BezierBase.h:49 set_control_point. *)
  Definition bz_set_control_point (c : bezier) (i : Z) (p : P) : res bezier :=
    do l <- set (bz_pts c) i p; Ok {| bz_pts := l; bz_periodic := bz_periodic c |}.

  (** The prologue [if (get_periodic()) t = unwrap_parameter(t);] (Bezier.h:45-47 etc.). *)
  Definition bz_unwrap (c : bezier) (t : T) : res T :=
    if bz_periodic c then unwrap_parameter (bz_periodic c) bz_lower bz_upper t else Ok t.

  (** Bezier.h:389-408 blossom. *)
  Definition bz_blossom (bv : list T) (degree : Z) (pts : list P) : res (list P) :=
    for_up 1 (degree + 1) (fun rec_step c =>
      for_down degree rec_step (fun j c =>
        do t <- get bv (rec_step - 1)%Z;
        do a <- get c j;
        do b <- get c (j - 1)%Z;
        set c j (t *: a + (s1 - t) *: b)%P) c) pts.

  (** Bezier.h:410-424 deBoor ([curve_degree] is Base::get_degree()). *)
  Definition bz_deBoor (curve_degree : Z) (t : T) (degree : Z) (pts : list P) : res P :=
    do pts <-
      (if (0 <? degree)%Z then
         do bv <- alloc t curve_degree;
         bz_blossom bv degree pts
       else Ok pts);
    get pts degree.

  (** Bezier.h:43-51 evaluate (generic class). *)
  Definition bz_evaluate (c : bezier) (t : T) : res P :=
    do t <- bz_unwrap c t;
    bz_deBoor (bz_degree c) t (bz_degree c) (bz_pts c).

  (** Bezier.h:58-65 get_derivative_coefficients. *)
  Definition bz_derivative_coefficients (curve_degree : Z) (pts : list P) : res (list P) :=
    let deriv_degree := (curve_degree - 1)%Z in
    for_up 0 (deriv_degree + 1) (fun i c =>
      do a <- get c (i + 1)%Z;
      do b <- get c i;
      set c i (sofZ curve_degree *: (a - b))%P) pts.

  (** Bezier.h:67-86 evaluate_derivative (generic class). *)
  Definition bz_evaluate_derivative (c : bezier) (t : T) : res P :=
    do t <- bz_unwrap c t;
    let curve_degree := bz_degree c in
    do _ <- assert_ (0 <=? curve_degree)%Z;
    if (curve_degree =? 0)%Z then Ok p0
    else
      let deriv_degree := (curve_degree - 1)%Z in
      do pts <- bz_derivative_coefficients curve_degree (bz_pts c);
      bz_deBoor curve_degree t deriv_degree pts.

  (** Bezier.h:88-109 evaluate_2nd_derivative (generic class). *)
  Definition bz_evaluate_2nd_derivative (c : bezier) (t : T) : res P :=
    do t <- bz_unwrap c t;
    let curve_degree := bz_degree c in
    do _ <- assert_ (0 <=? curve_degree)%Z;
    if (curve_degree <=? 1)%Z then Ok p0
    else
      let deriv_degree := (curve_degree - 1)%Z in
      let deriv2_degree := (curve_degree - 2)%Z in
      do pts <- bz_derivative_coefficients curve_degree (bz_pts c);
      do pts <- bz_derivative_coefficients deriv_degree pts;
      bz_deBoor curve_degree t deriv2_degree pts.

  (** The virtual functions of a generic Bezier object. *)
  Definition bz_ops (c : bezier) : curve_ops T P :=
    {| c_lower := bz_lower; c_upper := bz_upper; c_eval := bz_evaluate c;
       c_d1 := bz_evaluate_derivative c; c_d2 := bz_evaluate_2nd_derivative c |}.

  (** BezierBase.h:37-45 approximate_inverse_evaluate. *)
  Definition bz_approximate_inverse_evaluate (ops : curve_ops T P) (degree : Z) (p : P)
      (lower upper : T) (level : Z) : res T :=
    let num_samples := (2 * (degree + 1))%Z in
    approximate_inverse_evaluate ops p num_samples lower upper level.

  (** Bezier.h:240-246 (and the identical loops at 559-565, 751-757, 981-987): the two nested loops
      of split; the state is (ctrl_pts, ctrl_pts_1, ctrl_pts_2). *)
  Definition bz_split_loop (d : Z) (t : T) (pts : list P) : res (list P * list P) :=
    do c1 <- alloc p0 (d + 1);
    do c2 <- alloc p0 (d + 1);
    do '(pts, c1, c2) <-
      for_up 0 (d + 1) (fun i st =>
        let '(pts, c1, c2) := st in
        do a <- get pts 0%Z; do c1 <- set c1 i a;
        do b <- get pts (d - i)%Z; do c2 <- set c2 (d - i)%Z b;
        do pts <- for_up 0 (d - i) (fun j pts =>
          do a <- get pts j;
          do b <- get pts (j + 1)%Z;
          set pts j ((s1 - t) *: a + t *: b)%P) pts;
        Ok (pts, c1, c2)) (pts, c1, c2);
    Ok (c1, c2).

  (** Bezier.h:227-251 split (generic class). *)
  Definition bz_split (c : bezier) (t : T) : res (list bezier) :=
    if negb (is_split_point_valid bz_lower bz_upper t) then Ok [c]
    else
      let d := bz_degree c in
      do '(c1, c2) <- bz_split_loop d t (bz_pts c);
      Ok [mk_bezier c1; mk_bezier c2].

  (** Bezier.h:267-304 subcurve (generic class). *)
  Definition bz_subcurve (c : bezier) (t0 t1 : T) : res bezier :=
    if t1 <? t0 then Throw invalid_setting_error
    else if (t0 <? s0) || (s1 <? t0) || (t1 <? s0) || (s1 <? t1) then Throw invalid_setting_error
    else
      let curve_degree := bz_degree c in
      do out <- alloc p0 (curve_degree + 1);
      do out <- for_up 0 (curve_degree + 1) (fun i out =>
        do bv <- alloc t1 curve_degree;
        do bv <- for_up 0 i (fun j bv => set bv j t0) bv;
        do pts <- bz_blossom bv curve_degree (bz_pts c);
        do a <- get pts curve_degree;
        set out (curve_degree - i)%Z a) out;
      Ok (mk_bezier out).

  (** Bezier.h:253-262 _split. *)
  Definition bz__split (c : bezier) (t : T) : res (list bezier) :=
    do _ <- assert_ (s0 <=? t);
    do _ <- assert_ (t <=? s1);
    do a <- bz_subcurve c s0 t;
    do b <- bz_subcurve c t s1;
    Ok [a; b].

  (** Bezier.h:309-329 elevate_degree (generic class). *)
  Definition bz_elevate_degree (c : bezier) : res bezier :=
    let degree := bz_degree c in
    do out <- alloc p0 (degree + 2);
    do _ <- assert_ (zlen (bz_pts c) =? degree + 1)%Z;
    do a <- get (bz_pts c) 0%Z;
    do out <- set out 0%Z a;
    do out <- for_up 1 (degree + 1) (fun i out =>
      do alpha <- ddiv (sofZ i) (sofZ (degree + 1));
      do a <- get (bz_pts c) i;
      do b <- get (bz_pts c) (i - 1)%Z;
      set out i ((s1 - alpha) *: a + alpha *: b)%P) out;
    do a <- get (bz_pts c) degree;
    do out <- set out (degree + 1)%Z a;
    Ok {| bz_pts := out; bz_periodic := bz_periodic c |}.

  (** * Specialised classes *)

  (** Bezier.h:445 (degree 0) evaluate: no periodic handling. *)
  Definition bz0_evaluate (c : bezier) (t : T) : res P := get (bz_pts c) 0%Z.
  (** Bezier.h:449, 451 *)
  Definition bz0_evaluate_derivative (c : bezier) (t : T) : res P := Ok p0.
  Definition bz0_evaluate_2nd_derivative (c : bezier) (t : T) : res P := Ok p0.
  (** Bezier.h:471-481 (degree 0) elevate_degree. *)
  Definition bz0_elevate_degree (c : bezier) : res bezier :=
    do a <- get (bz_pts c) 0%Z;
    Ok {| bz_pts := [a; a]; bz_periodic := bz_periodic c |}.

  (** Bezier.h:503-506 (degree 1) evaluate: no periodic handling. *)
  Definition bz1_evaluate (c : bezier) (t : T) : res P :=
    do r0 <- get (bz_pts c) 0%Z;
    do r1 <- get (bz_pts c) 1%Z;
    Ok ((s1 - t) *: r0 + t *: r1)%P.
  (** Bezier.h:508-513 (degree 1) inverse_evaluate. *)
  Definition bz1_inverse_evaluate (c : bezier) (p : P) : res T :=
    do r0 <- get (bz_pts c) 0%Z;
    do r1 <- get (bz_pts c) 1%Z;
    let e := (r1 - r0)%P in
    do t <- ddiv (pdot (p - r0)%P e) (sqnorm e);
    Ok (smax (smin t s1) s0).
  (** Bezier.h:515-518, 520 *)
  Definition bz1_evaluate_derivative (c : bezier) (t : T) : res P :=
    do r0 <- get (bz_pts c) 0%Z;
    do r1 <- get (bz_pts c) 1%Z;
    Ok (r1 - r0)%P.
  Definition bz1_evaluate_2nd_derivative (c : bezier) (t : T) : res P := Ok p0.
  (** Bezier.h:540-551 (degree 1) elevate_degree; colwise().mean() of two rows. *)
  Definition bz1_elevate_degree (c : bezier) : res bezier :=
    do r0 <- get (bz_pts c) 0%Z;
    do r1 <- get (bz_pts c) 1%Z;
    do m <- pdivs (r0 + r1)%P (sofZ 2);
    Ok {| bz_pts := [r0; m; r1]; bz_periodic := bz_periodic c |}.
  (** Bezier.h:553-577 (degree 1) split. *)
  Definition bz1_split (c : bezier) (t : T) : res (list bezier) :=
    if negb (is_split_point_valid bz_lower bz_upper t) then Ok [c]
    else do '(c1, c2) <- bz_split_loop 1 t (bz_pts c); Ok [mk_bezier c1; mk_bezier c2].

  (** Bezier.h:599-609 (degree 2) evaluate. *)
  Definition bz2_evaluate (c : bezier) (t : T) : res P :=
    do t <- bz_unwrap c t;
    do r0 <- get (bz_pts c) 0%Z;
    do r1 <- get (bz_pts c) 1%Z;
    do r2 <- get (bz_pts c) 2%Z;
    let q0 := ((s1 - t) *: r0 + t *: r1)%P in
    let q1 := ((s1 - t) *: r1 + t *: r2)%P in
    Ok ((s1 - t) *: q0 + t *: q1)%P.
  (** Bezier.h:616-626 (degree 2) evaluate_derivative. *)
  Definition bz2_evaluate_derivative (c : bezier) (t : T) : res P :=
    do t <- bz_unwrap c t;
    do r0 <- get (bz_pts c) 0%Z;
    do r1 <- get (bz_pts c) 1%Z;
    do r2 <- get (bz_pts c) 2%Z;
    let q0 := ((s1 - t) *: r0 + t *: r1)%P in
    let q1 := ((s1 - t) *: r1 + t *: r2)%P in
    Ok (sofZ 2 *: (q1 - q0))%P.
  (** Bezier.h:628-635 (degree 2) evaluate_2nd_derivative. *)
  Definition bz2_evaluate_2nd_derivative (c : bezier) (t : T) : res P :=
    do t <- bz_unwrap c t;
    do r0 <- get (bz_pts c) 0%Z;
    do r1 <- get (bz_pts c) 1%Z;
    do r2 <- get (bz_pts c) 2%Z;
    Ok (sofZ 2 *: (r0 + r2 - sofZ 2 *: r1))%P.
  (** Bezier.h:731-745 (degree 2) elevate_degree. *)
  Definition bz2_elevate_degree (c : bezier) : res bezier :=
    do r0 <- get (bz_pts c) 0%Z;
    do r1 <- get (bz_pts c) 1%Z;
    do r2 <- get (bz_pts c) 2%Z;
    do a <- pdivs r0 (sofZ 3);
    do b <- pdivs (sofZ 2 *: r1)%P (sofZ 3);
    do e <- pdivs r2 (sofZ 3);
    Ok {| bz_pts := [r0; (a + b)%P; (b + e)%P; r2]; bz_periodic := bz_periodic c |}.
  (** Bezier.h:747-770 (degree 2) split. *)
  Definition bz2_split (c : bezier) (t : T) : res (list bezier) :=
    if negb (is_split_point_valid bz_lower bz_upper t) then Ok [c]
    else do '(c1, c2) <- bz_split_loop 2 t (bz_pts c); Ok [mk_bezier c1; mk_bezier c2].

  (** Bezier.h:791-806 (degree 3) evaluate. *)
  Definition bz3_evaluate (c : bezier) (t : T) : res P :=
    do t <- bz_unwrap c t;
    do r0 <- get (bz_pts c) 0%Z;
    do r1 <- get (bz_pts c) 1%Z;
    do r2 <- get (bz_pts c) 2%Z;
    do r3 <- get (bz_pts c) 3%Z;
    let q0 := ((s1 - t) *: r0 + t *: r1)%P in
    let q1 := ((s1 - t) *: r1 + t *: r2)%P in
    let q2 := ((s1 - t) *: r2 + t *: r3)%P in
    let u0 := ((s1 - t) *: q0 + t *: q1)%P in
    let u1 := ((s1 - t) *: q1 + t *: q2)%P in
    Ok ((s1 - t) *: u0 + t *: u1)%P.
  (** Bezier.h:813-828 (degree 3) evaluate_derivative. *)
  Definition bz3_evaluate_derivative (c : bezier) (t : T) : res P :=
    do t <- bz_unwrap c t;
    do r0 <- get (bz_pts c) 0%Z;
    do r1 <- get (bz_pts c) 1%Z;
    do r2 <- get (bz_pts c) 2%Z;
    do r3 <- get (bz_pts c) 3%Z;
    let q0 := ((s1 - t) *: r0 + t *: r1)%P in
    let q1 := ((s1 - t) *: r1 + t *: r2)%P in
    let q2 := ((s1 - t) *: r2 + t *: r3)%P in
    let u0 := ((s1 - t) *: q0 + t *: q1)%P in
    let u1 := ((s1 - t) *: q1 + t *: q2)%P in
    Ok (sofZ 3 *: (u1 - u0))%P.
  (** Bezier.h:830-842 (degree 3) evaluate_2nd_derivative. *)
  Definition bz3_evaluate_2nd_derivative (c : bezier) (t : T) : res P :=
    do t <- bz_unwrap c t;
    do r0 <- get (bz_pts c) 0%Z;
    do r1 <- get (bz_pts c) 1%Z;
    do r2 <- get (bz_pts c) 2%Z;
    do r3 <- get (bz_pts c) 3%Z;
    let q0 := ((s1 - t) *: r0 + t *: r1)%P in
    let q1 := ((s1 - t) *: r1 + t *: r2)%P in
    let q2 := ((s1 - t) *: r2 + t *: r3)%P in
    Ok (sofZ 6 *: (q0 + q2 - sofZ 2 *: q1))%P.
  (** Bezier.h:971-995 (degree 3) split. *)
  Definition bz3_split (c : bezier) (t : T) : res (list bezier) :=
    if negb (is_split_point_valid bz_lower bz_upper t) then Ok [c]
    else do '(c1, c2) <- bz_split_loop 3 t (bz_pts c); Ok [mk_bezier c1; mk_bezier c2].
  (** Bezier.h:1000-1019 (degree 3) subcurve; [v[1]] on a one-element std::vector is undefined
      behaviour, which is what [get] returns. *)
  Definition bz3_subcurve (c : bezier) (t0 t1 : T) : res bezier :=
    if t1 <? t0 then Throw invalid_setting_error
    else
      let t0_is_endpt := t0 =? bz_lower in
      let t1_is_endpt := t1 =? bz_upper in
      if t0_is_endpt && t1_is_endpt then Ok c
      else if t0_is_endpt then do l <- bz3_split c t1; get l 0%Z
      else if t1_is_endpt then do l <- bz3_split c t0; get l 1%Z
      else
        do l <- bz3_split c t0;
        do c' <- get l 1%Z;
        do l' <- bz3_split c' t1;
        get l' 0%Z.
  (** Bezier.h:1021-1036 (degree 3) elevate_degree. *)
  Definition bz3_elevate_degree (c : bezier) : res bezier :=
    do r0 <- get (bz_pts c) 0%Z;
    do r1 <- get (bz_pts c) 1%Z;
    do r2 <- get (bz_pts c) 2%Z;
    do r3 <- get (bz_pts c) 3%Z;
    do a <- pdivs r0 (sofZ 4);
    do b <- pdivs (sofZ 3 *: r1)%P (sofZ 4);
    do a2 <- pdivs r1 (sofZ 2);
    do b2 <- pdivs r2 (sofZ 2);
    do a3 <- pdivs (sofZ 3 *: r2)%P (sofZ 4);
    do b3 <- pdivs r3 (sofZ 4);
    Ok {| bz_pts := [r0; (a + b)%P; (a2 + b2)%P; (a3 + b3)%P; r3];
          bz_periodic := bz_periodic c |}.

  (** split.h:14-30 split(Bezier, t); [member_split] is the member function of the curve's class. *)
  Definition split_bezier (member_split : bezier -> T -> res (list bezier)) (c : bezier) (t : T)
    : res (list bezier) :=
    if negb (bz_in_domain t) then Throw invalid_setting_error
    else if t =? bz_lower then Ok [c]
    else if t =? bz_upper then Ok [c]
    else
      do r <- member_split c t;
      do a <- get r 0%Z;
      do b <- get r 1%Z;
      Ok [a; b].

  (** hodograph.h:8-35 compute_hodograph(Bezier). *)
  Definition bz_hodograph (c : bezier) : res bezier :=
    let pts := bz_pts c in
    let num := zlen pts in
    do out <- alloc p0 (num - 1);
    if (num =? 1)%Z then Ok (mk_bezier [p0])
    else
      do out <- for_up 0 (num - 1) (fun i out =>
        do a <- get pts (i + 1)%Z;
        do b <- get pts i;
        set out i (sofZ (num - 1) *: (a - b))%P) out;
      do closed <- (if bz_periodic c then is_closed (bz_ops c) 1 seps else Ok false);
      Ok {| bz_pts := out; bz_periodic := bz_periodic c && closed |}.
End Bezier.
Arguments bezier : clear implicits.
