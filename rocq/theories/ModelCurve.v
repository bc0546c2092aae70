(** Model of /repo/include/nanospline/CurveBase.h: the non-virtual functions of the base class of all
    curves.  A curve is represented by its virtual functions ([curve_ops]). *)
From Coq Require Import QArith.
From Verif Require Import Monad Scalar.
Local Open Scope Z_scope.

Section Curve.
  Context {T P : Type} {SO : ScalarOps T} {V : PointOps T P}.
  Local Open Scope scal_scope.

  (** CurveBase.h:33-36, 61-64: the pure virtual functions used by the base class. *)
  Record curve_ops := {
    c_lower : T;                 (* get_domain_lower_bound() *)
    c_upper : T;                 (* get_domain_upper_bound() *)
    c_eval : T -> res P;         (* evaluate *)
    c_d1 : T -> res P;           (* evaluate_derivative *)
    c_d2 : T -> res P;           (* evaluate_2nd_derivative *)
  }.

  (** CurveBase.h:42-59 is_closed.  ([result && d1 < tol] still evaluates d1 first, as here.) *)
  Definition is_closed (c : curve_ops) (order : Z) (tol : T) : res bool :=
    let t_min := c_lower c in
    let t_max := c_upper c in
    do a <- c_eval c t_min; do b <- c_eval c t_max;
    let d0 := pnorm (a - b)%P in
    let result := d0 <? tol in
    do result <-
      (if (1 <=? order)%Z then
         do a <- c_d1 c t_min; do b <- c_d1 c t_max;
         let d1 := pnorm (a - b)%P in
         Ok (result && (d1 <? tol))
       else Ok result);
    if (2 <=? order)%Z then
      do a <- c_d2 c t_min; do b <- c_d2 c t_max;
      let d2 := pnorm (a - b)%P in
      Ok (result && (d2 <? tol))
    else Ok result.

  (** CurveBase.h:71-82 evaluate_curvature. *)
  Definition evaluate_curvature (c : curve_ops) (t : T) : res P :=
    do d1 <- c_d1 c t;
    do d2 <- c_d2 c t;
    let sq_speed := sqnorm d1 in
    if sq_speed =? s0 then Ok p0
    else
      do e <- pdivs (pdot d1 d2 *: d1)%P sq_speed;
      pdivs (d2 - e)%P sq_speed.

  (** CurveBase.h:132-139 is_split_point_valid. *)
  Definition is_split_point_valid (lower upper t : T) : bool :=
    if (t <=? lower) || (upper <=? t) then false else true.

  (** CurveBase.h:203-213 unwrap_parameter. *)
  Definition unwrap_parameter (periodic : bool) (t_min t_max t : T) : res T :=
    do _ <- assert_ periodic;
    let period := t_max - t_min in
    do f <- sfmod (t - t_min) period;
    let t := f + t_min in
    let t := if t <? t_min then t + period else t in
    do _ <- assert_ ((t_min <=? t) && (t <=? t_max));
    Ok t.

  (** CurveBase.h:174-201 newton_raphson: one iteration; [inr] is a return statement. *)
  Definition newton_step (c : curve_ops) (p : P) (tol lower upper : T) (st : T * T * T)
    : res ((T * T * T) + T) :=
    let '(t, prev_t, prev_err) := st in
    do d0 <- c_eval c t;
    do d1 <- c_d1 c t;
    do d2 <- c_d2 c t;
    let f := pdot (p - d0)%P d1 in
    let df := pdot (p - d0)%P d2 - sqnorm d1 in
    let err := sabs f in
    if err <? tol then Ok (inr t)
    else if (s0 <? prev_err) && (prev_err <? err) then Ok (inr prev_t)
    else
      let prev_err := err in
      let prev_t := t in
      do q <- ddiv f df;
      let t := t - q in
      if t <=? lower then Ok (inr lower)
      else if upper <=? t then Ok (inr upper)
      else Ok (inl (t, prev_t, prev_err)).

  (** CurveBase.h:174-201 newton_raphson. *)
  Definition newton_raphson (c : curve_ops) (p : P) (t : T) (num_iterations : Z)
      (tol lower upper : T) : res T :=
    do r <- forb_up 0 num_iterations (fun _ st => newton_step c p tol lower upper st)
              (t, t, - s1);
    match r with
    | inr t => Ok t
    | inl (t, _, _) => Ok t
    end.

  (** CurveBase.h:149-160: the sampling loop; the state is (min_t, min_dist). *)
  Definition sample_min (c : curve_ops) (p : P) (num_samples : Z) (lower upper : T) : res (T * T) :=
    for_up 0 (num_samples + 1) (fun i st =>
      let '(min_t, min_dist) := st in
      do r <- ddiv (sofZ i) (sofZ num_samples);
      let t := lower + r * (upper - lower) in
      do q <- c_eval c t;
      let dist := sqnorm (p - q)%P in
      if dist <? min_dist then Ok (t, dist) else Ok (min_t, min_dist)) (s0, snummax).

  (** CurveBase.h:141-172 approximate_inverse_evaluate (5 argument version).  The recursion on
      [level] is structural on a nat: a negative level behaves like level 0 ([level <= 0]). *)
  Fixpoint approx_inverse (c : curve_ops) (p : P) (num_samples : Z) (lower upper : T) (level : nat)
    : res T :=
    do _ <- assert_ (0 <? num_samples)%Z;
    do delta_t <- ddiv (upper - lower) (sofZ num_samples);
    do '(min_t, min_dist) <- sample_min c p num_samples lower upper;
    match level with
    | O => newton_raphson c p min_t 10 (seps * sofZ 100) lower upper
    | S level' =>
        approx_inverse c p num_samples
          (smin (smax (min_t - delta_t) lower) upper)
          (smin (smax (min_t + delta_t) lower) upper)
          level'
    end.

  (** The C++ [int level] argument. *)
  Definition approximate_inverse_evaluate (c : curve_ops) (p : P) (num_samples : Z) (lower upper : T)
      (level : Z) : res T :=
    approx_inverse c p num_samples lower upper (Z.to_nat level).
End Curve.
Arguments curve_ops : clear implicits.
Arguments Build_curve_ops {T P}.
