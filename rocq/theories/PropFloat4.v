(** Rational curves with rounding (C115, C116). *)
From Coq Require Import Reals Lra Lia ZArith QArith List Bool.
From Flocq Require Import Core IEEE754.BinarySingleNaN.
From Verif Require Import Monad Scalar Spec ModelCurve ModelBezier BezierThms ModelBSpline BSplineThms BSplineThms2 ModelRational
  SpecFloat ModelFloat ModelFloatWrap ModelFloatRational FloatThms2 FloatThms3 FloatCases FloatRuns FloatRational FloatRational2.
Import ListNotations.
Local Open Scope R_scope.

(** * C115: the rounding error of rational curves with positive weights *)

(** The weights lie in [w0, W], the coordinates in [-M, M]. *)
Theorem C115_bezier_double : forall (d : nat) (c0 : rbezier double d) (t : double) (n : nat) (w0 W M : R),
  length (rb_pts c0) = S n -> length (rb_weights c0) = S n -> rb_periodic c0 = false ->
  (forall p, In p (rb_pts c0) -> vfinite d p /\ forall i, (i < d)%nat -> Rabs (coord d i (vreal d p)) <= M) ->
  (forall w, In w (rb_weights c0) -> is_finite w = true /\ w0 <= B2R w <= W) ->
  0 < w0 -> 0 <= M <= bpow radix2 1022 -> W <= bpow radix2 1022 -> W * M <= bpow radix2 1022 ->
  8 * (INR n + 1) * (4 * unit_roundoff 53 * W + 3 * underflow_error 53 1024) <= w0 ->
  is_finite t = true -> 0 <= B2R t <= 1 ->
  exists (c : rbezier double d) (q : vec double d),
    @rb_initialize double double_ops d c0 = Ok c /\ @f_rb_evaluate 53 1024 prec64 max64 d c t = Ok q /\ vfinite d q /\
    forall i, (i < d)%nat ->
      Rabs (coord d i (vreal d q) - coord d i (weighted_mean (S n) (bezier_basis (S n) (B2R t)) (map B2R (rb_weights c0)) (map (vreal d) (rb_pts c0))))
      <= W / w0 * M * ((20 * INR n + 4) * unit_roundoff 53) + (1 + (7 * INR n * (1 + M) + 5) / w0) * underflow_error 53 1024.
Proof. exact rational_bezier_double. Qed.
Print Assumptions C115_bezier_double.

Theorem C115_nurbs_double : forall (d : nat) (c0 : nurbs double d) (t : double) (w0 W M : R),
  let knots := map B2R (nb_knots c0) in
  let n := length (nb_pts c0) in
  let p := bspline_degree (nb_pts c0) knots in
  length (nb_weights c0) = n -> nb_periodic c0 = false ->
  valid_bspline (nb_pts c0) knots -> knots_apart (/ IZR (10 ^ 15)) knots ->
  (forall x, In x (nb_knots c0) -> is_finite x = true /\ Rabs (B2R x) <= bpow radix2 1022) ->
  (forall a, In a (nb_pts c0) -> vfinite d a /\ forall i, (i < d)%nat -> Rabs (coord d i (vreal d a)) <= M) ->
  (forall w, In w (nb_weights c0) -> is_finite w = true /\ w0 <= B2R w <= W) ->
  0 < w0 -> 0 <= M <= bpow radix2 1022 -> W <= bpow radix2 1022 -> W * M <= bpow radix2 1022 ->
  8 * (INR p + 1) * ((14 * unit_roundoff 53 + 2 * underflow_error 53 1024) * W + 3 * underflow_error 53 1024) <= w0 ->
  is_finite t = true -> lower_of (nb_pts c0) knots <= B2R t <= upper_of (nb_pts c0) knots ->
  (nth p knots 0 < nth (p + 1) knots 0 \/ lower_of (nb_pts c0) knots < B2R t) ->
  exists (c : nurbs double d) (q : vec double d),
    @nb_initialize double double_ops d c0 = Ok c /\ @f_nb_evaluate 53 1024 prec64 max64 d c t = Ok q /\ vfinite d q /\
    forall i, (i < d)%nat ->
      Rabs (coord d i (vreal d q) - coord d i (weighted_mean n (bspline_basis n knots (B2R t)) (map B2R (nb_weights c0)) (map (vreal d) (nb_pts c0))))
      <= W / w0 * M * ((70 * INR p + 4) * unit_roundoff 53 + 10 * INR p * underflow_error 53 1024)
         + (1 + (7 * INR p * (1 + M) + 5) / w0) * underflow_error 53 1024.
Proof. exact nurbs_double. Qed.
Print Assumptions C115_nurbs_double.

Theorem C115_nurbs_float : forall (d : nat) (c0 : nurbs float32 d) (t : float32) (w0 W M : R),
  let knots := map B2R (nb_knots c0) in
  let n := length (nb_pts c0) in
  let p := bspline_degree (nb_pts c0) knots in
  length (nb_weights c0) = n -> nb_periodic c0 = false ->
  valid_bspline (nb_pts c0) knots -> knots_apart (/ IZR (10 ^ 15)) knots ->
  (forall x, In x (nb_knots c0) -> is_finite x = true /\ Rabs (B2R x) <= bpow radix2 126) ->
  (forall a, In a (nb_pts c0) -> vfinite d a /\ forall i, (i < d)%nat -> Rabs (coord d i (vreal d a)) <= M) ->
  (forall w, In w (nb_weights c0) -> is_finite w = true /\ w0 <= B2R w <= W) ->
  0 < w0 -> 0 <= M <= bpow radix2 126 -> W <= bpow radix2 126 -> W * M <= bpow radix2 126 ->
  8 * (INR p + 1) * ((14 * unit_roundoff 24 + 2 * underflow_error 24 128) * W + 3 * underflow_error 24 128) <= w0 ->
  is_finite t = true -> lower_of (nb_pts c0) knots <= B2R t <= upper_of (nb_pts c0) knots ->
  (nth p knots 0 < nth (p + 1) knots 0 \/ lower_of (nb_pts c0) knots < B2R t) ->
  exists (c : nurbs float32 d) (q : vec float32 d),
    @nb_initialize float32 float32_ops d c0 = Ok c /\ @f_nb_evaluate 24 128 prec32 max32 d c t = Ok q /\ vfinite d q /\
    forall i, (i < d)%nat ->
      Rabs (coord d i (vreal d q) - coord d i (weighted_mean n (bspline_basis n knots (B2R t)) (map B2R (nb_weights c0)) (map (vreal d) (nb_pts c0))))
      <= W / w0 * M * ((70 * INR p + 4) * unit_roundoff 24 + 10 * INR p * underflow_error 24 128)
         + (1 + (7 * INR p * (1 + M) + 5) / w0) * underflow_error 24 128.
Proof. exact nurbs_float. Qed.
Print Assumptions C115_nurbs_float.

(** A cubic and a quadratic spline with the weights 1, 1/2, 3, 1 meet the hypotheses. *)
Example C115_case :
  (length (rb_pts rcurve) = 4%nat /\ length (rb_weights rcurve) = 4%nat /\ rb_periodic rcurve = false /\
   (forall p, In p (rb_pts rcurve) -> vfinite 2 p /\ forall i, (i < 2)%nat -> Rabs (coord 2 i (vreal 2 p)) <= 4) /\
   (forall w, In w (rb_weights rcurve) -> is_finite w = true /\ / 2 <= B2R w <= 3) /\
   0 < / 2 /\ 0 <= 4 <= bpow radix2 1022 /\ 3 <= bpow radix2 1022 /\ 3 * 4 <= bpow radix2 1022 /\
   8 * (INR 3 + 1) * (4 * unit_roundoff 53 * 3 + 3 * underflow_error 53 1024) <= / 2 /\
   is_finite (dofQ (3 # 10)) = true /\ 0 <= B2R (dofQ (3 # 10)) <= 1) /\
  (let knots := map B2R (nb_knots rspline) in
   let p := bspline_degree (nb_pts rspline) knots in
   length (nb_weights rspline) = length (nb_pts rspline) /\ nb_periodic rspline = false /\
   valid_bspline (nb_pts rspline) knots /\ knots_apart (/ IZR (10 ^ 15)) knots /\
   (forall x, In x (nb_knots rspline) -> is_finite x = true /\ Rabs (B2R x) <= bpow radix2 1022) /\
   (forall a, In a (nb_pts rspline) -> vfinite 2 a /\ forall i, (i < 2)%nat -> Rabs (coord 2 i (vreal 2 a)) <= 4) /\
   (forall w, In w (nb_weights rspline) -> is_finite w = true /\ / 2 <= B2R w <= 3) /\
   0 < / 2 /\ 0 <= 4 <= bpow radix2 1022 /\ 3 <= bpow radix2 1022 /\ 3 * 4 <= bpow radix2 1022 /\
   8 * (INR p + 1) * ((14 * unit_roundoff 53 + 2 * underflow_error 53 1024) * 3 + 3 * underflow_error 53 1024) <= / 2 /\
   is_finite (dofQ (3 # 10)) = true /\ lower_of (nb_pts rspline) knots <= B2R (dofQ (3 # 10)) <= upper_of (nb_pts rspline) knots /\
   nth p knots 0 < nth (p + 1) knots 0).
Proof. split; [exact rcurve_case|exact rspline_case]. Qed.

(** * C116: a rational curve goes through its end points exactly, with rounding *)

Theorem C116_ends_partial : forall (d : nat) (c0 : rbezier double d) (t : double) (n : nat) (w0 W M : R),
  length (rb_pts c0) = S n -> length (rb_weights c0) = S n -> rb_periodic c0 = false ->
  (forall p, In p (rb_pts c0) -> vfinite d p /\ forall i, (i < d)%nat -> Rabs (coord d i (vreal d p)) <= M) ->
  (forall w, In w (rb_weights c0) -> is_finite w = true /\ w0 <= B2R w <= W) ->
  0 < w0 -> 0 <= M -> W * M <= bpow radix2 1022 -> is_finite t = true ->
  let reaches (j : nat) := exists (c : rbezier double d) (q : vec double d),
    @rb_initialize double double_ops d c0 = Ok c /\ @f_rb_evaluate 53 1024 prec64 max64 d c t = Ok q /\ vfinite d q /\
    vreal d q = vreal d (nth j (rb_pts c0) (@p0 _ _ (@vec_ops double double_ops d))) in
  (B2R t = 0 -> B2R (nth 0 (rb_weights c0) (@s0 double double_ops)) = 1 -> reaches 0%nat) /\
  (B2R t = 1 -> B2R (nth n (rb_weights c0) (@s0 double double_ops)) = 1 -> reaches n).
Proof. exact (@rational_ends 53 1024 prec64 max64). Qed.
Print Assumptions C116_ends_partial.

(** Not for other weights: with weight 3 the first control point 0.1 comes out as its successor. *)
Theorem C116_heavy_refuted : exists (c0 c : rbezier double 1) (q : vec double 1),
  rb_periodic c0 = false /\
  length (rb_pts c0) = 2%nat /\ length (rb_weights c0) = 2%nat /\
  (forall p, In p (rb_pts c0) -> vfinite 1 p /\ forall i, (i < 1)%nat -> Rabs (coord 1 i (vreal 1 p)) <= 1) /\
  (forall w, In w (rb_weights c0) -> is_finite w = true /\ 1 <= B2R w <= 3) /\
  @rb_initialize double double_ops 1 c0 = Ok c /\
  @f_rb_evaluate 53 1024 prec64 max64 1 c (B754_zero false) = Ok q /\
  vreal 1 q <> vreal 1 (nth 0 (rb_pts c0) (@p0 _ _ (@vec_ops double double_ops 1))).
Proof. exact heavy_refuted. Qed.
Print Assumptions C116_heavy_refuted.

(** The cubic of [C115_case] has end weights 1. *)
Example C116_case :
  B2R (nth 0 (rb_weights rcurve) (@s0 double double_ops)) = 1 /\ B2R (nth 3 (rb_weights rcurve) (@s0 double double_ops)) = 1.
Proof.
  dval 1%Q false 4503599627370496%positive (-52)%Z. cbn [rcurve rb_weights map nth]. rewrite E. simpl IZR. split; lra.
Qed.
