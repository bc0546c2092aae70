(** Curves evaluated with rounding (C109, C110, C111). *)
From Coq Require Import Reals Lra Lia ZArith QArith List Bool.
From Flocq Require Import Core IEEE754.BinarySingleNaN.
From Verif Require Import Monad Scalar Spec ModelCurve ModelBezier BezierThms ModelBSpline BSplineThms BSplineThms2
  SpecFloat ModelFloat FloatThms2 FloatThms3 FloatCases FloatRuns.
Import ListNotations.
Local Open Scope R_scope.

(** * C109: the rounding error of Bezier evaluation *)

Theorem C109_bezier_double : forall (d : nat) (pts : list (vec double d)) (t : double) (n : nat) (M : R),
  length pts = S n -> 0 <= M <= bpow radix2 1023 -> 24 * INR n * unit_roundoff 53 <= 1 ->
  (forall p, In p pts -> vfinite d p /\ forall i, (i < d)%nat -> Rabs (coord d i (vreal d p)) <= M) ->
  is_finite t = true -> 0 <= B2R t <= 1 ->
  exists q : vec double d,
    @bz_evaluate double (vec double d) double_ops (@vec_ops double double_ops d) (mk_bezier pts) t = Ok q /\
    vfinite d q /\
    forall i, (i < d)%nat ->
      Rabs (coord d i (vreal d q) - coord d i (bernstein_curve (map (vreal d) pts) (B2R t)))
      <= INR n * (4 * unit_roundoff 53 * M + 3 * underflow_error 53 1024).
Proof. exact bezier_error_double. Qed.
Print Assumptions C109_bezier_double.

Theorem C109_bezier_float : forall (d : nat) (pts : list (vec float32 d)) (t : float32) (n : nat) (M : R),
  length pts = S n -> 0 <= M <= bpow radix2 127 -> 24 * INR n * unit_roundoff 24 <= 1 ->
  (forall p, In p pts -> vfinite d p /\ forall i, (i < d)%nat -> Rabs (coord d i (vreal d p)) <= M) ->
  is_finite t = true -> 0 <= B2R t <= 1 ->
  exists q : vec float32 d,
    @bz_evaluate float32 (vec float32 d) float32_ops (@vec_ops float32 float32_ops d) (mk_bezier pts) t = Ok q /\
    vfinite d q /\
    forall i, (i < d)%nat ->
      Rabs (coord d i (vreal d q) - coord d i (bernstein_curve (map (vreal d) pts) (B2R t)))
      <= INR n * (4 * unit_roundoff 24 * M + 3 * underflow_error 24 128).
Proof. exact bezier_error_float. Qed.
Print Assumptions C109_bezier_float.

(** The error cannot be dropped: a curve all of whose control points are the number 0.1 leaves that number. *)
Theorem C109_exact_refuted : exists (a t q : double),
  is_finite a = true /\ is_finite t = true /\ 0 < B2R t < 1 /\
  @bz_evaluate double (vec double 1) double_ops (@vec_ops double double_ops 1) (mk_bezier [(a, tt); (a, tt)]) t
    = Ok (q, tt) /\
  is_finite q = true /\ B2R q < B2R a.
Proof. exact constant_not_kept. Qed.
Print Assumptions C109_exact_refuted.

(** A cubic curve in the plane meets the hypotheses with [M = 4]. *)
Example C109_case : let pts := [dpt 0 1; dpt 1 3; dpt 4 (-2); dpt (1 # 3) 0] in let t := dofQ (1 # 10) in
  length pts = 4%nat /\ 0 <= 4 <= bpow radix2 1023 /\ 24 * INR 3 * unit_roundoff 53 <= 1 /\
  (forall p, In p pts -> vfinite 2 p /\ forall i, (i < 2)%nat -> Rabs (coord 2 i (vreal 2 p)) <= 4) /\
  is_finite t = true /\ 0 <= B2R t <= 1.
Proof. exact cubic_case. Qed.

(** * C110: the rounding error of B-spline evaluation *)

Theorem C110_bspline_double : forall (d : nat) (c : bspline double (vec double d)) (t : double) (M : R),
  let knots := map B2R (bs_knots c) in
  let p := bspline_degree (bs_pts c) knots in
  valid_bspline (bs_pts c) knots -> knots_apart (/ IZR (10 ^ 15)) knots -> bs_periodic c = false ->
  (forall x, In x (bs_knots c) -> is_finite x = true /\ Rabs (B2R x) <= bpow radix2 1022) ->
  0 <= M <= bpow radix2 1023 -> 24 * INR p * unit_roundoff 53 <= 1 ->
  (forall a, In a (bs_pts c) -> vfinite d a /\ forall i, (i < d)%nat -> Rabs (coord d i (vreal d a)) <= M) ->
  is_finite t = true -> lower_of (bs_pts c) knots <= B2R t <= upper_of (bs_pts c) knots ->
  (nth p knots 0 < nth (p + 1) knots 0 \/ lower_of (bs_pts c) knots < B2R t) ->
  exists q : vec double d,
    @bs_evaluate double (vec double d) double_ops (@vec_ops double double_ops d) c t = Ok q /\ vfinite d q /\
    forall i, (i < d)%nat ->
      Rabs (coord d i (vreal d q) - coord d i (bspline_curve (map (vreal d) (bs_pts c)) knots (B2R t)))
      <= INR p * (14 * unit_roundoff 53 * M + (3 + 2 * M) * underflow_error 53 1024).
Proof. exact bspline_error_double. Qed.
Print Assumptions C110_bspline_double.

Theorem C110_bspline_float : forall (d : nat) (c : bspline float32 (vec float32 d)) (t : float32) (M : R),
  let knots := map B2R (bs_knots c) in
  let p := bspline_degree (bs_pts c) knots in
  valid_bspline (bs_pts c) knots -> knots_apart (/ IZR (10 ^ 15)) knots -> bs_periodic c = false ->
  (forall x, In x (bs_knots c) -> is_finite x = true /\ Rabs (B2R x) <= bpow radix2 126) ->
  0 <= M <= bpow radix2 127 -> 24 * INR p * unit_roundoff 24 <= 1 ->
  (forall a, In a (bs_pts c) -> vfinite d a /\ forall i, (i < d)%nat -> Rabs (coord d i (vreal d a)) <= M) ->
  is_finite t = true -> lower_of (bs_pts c) knots <= B2R t <= upper_of (bs_pts c) knots ->
  (nth p knots 0 < nth (p + 1) knots 0 \/ lower_of (bs_pts c) knots < B2R t) ->
  exists q : vec float32 d,
    @bs_evaluate float32 (vec float32 d) float32_ops (@vec_ops float32 float32_ops d) c t = Ok q /\ vfinite d q /\
    forall i, (i < d)%nat ->
      Rabs (coord d i (vreal d q) - coord d i (bspline_curve (map (vreal d) (bs_pts c)) knots (B2R t)))
      <= INR p * (14 * unit_roundoff 24 * M + (3 + 2 * M) * underflow_error 24 128).
Proof. exact bspline_error_float. Qed.
Print Assumptions C110_bspline_float.

(** A quadratic B-spline with an inner knot meets the hypotheses with [M = 4]. *)
Example C110_case : let c := dspline in let t := dofQ (3 # 10) in
  let knots := map B2R (bs_knots c) in
  let p := bspline_degree (bs_pts c) knots in
  p = 2%nat /\
  valid_bspline (bs_pts c) knots /\ knots_apart (/ IZR (10 ^ 15)) knots /\ bs_periodic c = false /\
  (forall x, In x (bs_knots c) -> is_finite x = true /\ Rabs (B2R x) <= bpow radix2 1022) /\
  0 <= 4 <= bpow radix2 1023 /\ 24 * INR p * unit_roundoff 53 <= 1 /\
  (forall a, In a (bs_pts c) -> vfinite 2 a /\ forall i, (i < 2)%nat -> Rabs (coord 2 i (vreal 2 a)) <= 4) /\
  is_finite t = true /\ lower_of (bs_pts c) knots <= B2R t <= upper_of (bs_pts c) knots /\
  nth p knots 0 < nth (p + 1) knots 0.
Proof. exact spline_case. Qed.

(** * C111: what survives rounding exactly *)

Theorem C111_bezier_start : forall (d : nat) (pts : list (vec double d)) (t : double) (n : nat),
  length pts = S n -> (forall p, In p pts -> vfinite d p) -> is_finite t = true -> B2R t = 0 ->
  exists q : vec double d,
    @bz_evaluate double (vec double d) double_ops (@vec_ops double double_ops d) (mk_bezier pts) t = Ok q /\
    vfinite d q /\ vreal d q = vreal d (nth 0 pts (@p0 _ _ (@vec_ops double double_ops d))).
Proof. exact (@bezier_start_exact 53 1024 prec64 max64). Qed.
Print Assumptions C111_bezier_start.

Theorem C111_bezier_end : forall (d : nat) (pts : list (vec double d)) (t : double) (n : nat),
  length pts = S n -> (forall p, In p pts -> vfinite d p) -> is_finite t = true -> B2R t = 1 ->
  exists q : vec double d,
    @bz_evaluate double (vec double d) double_ops (@vec_ops double double_ops d) (mk_bezier pts) t = Ok q /\
    vfinite d q /\ vreal d q = vreal d (nth n pts (@p0 _ _ (@vec_ops double double_ops d))).
Proof. exact (@bezier_end_exact 53 1024 prec64 max64). Qed.
Print Assumptions C111_bezier_end.

Theorem C111_bspline_start : forall (d : nat) (c : bspline double (vec double d)) (t : double),
  let knots := map B2R (bs_knots c) in
  let p := bspline_degree (bs_pts c) knots in
  valid_bspline (bs_pts c) knots -> knots_apart (/ IZR (10 ^ 15)) knots -> bs_periodic c = false ->
  (forall x, In x (bs_knots c) -> is_finite x = true /\ Rabs (B2R x) <= bpow radix2 1022) ->
  (forall a, In a (bs_pts c) -> vfinite d a) ->
  nth p knots 0 < nth (p + 1) knots 0 -> (forall i, (1 <= i <= p)%nat -> nth i knots 0 = nth p knots 0) ->
  is_finite t = true -> B2R t = nth p knots 0 ->
  exists q : vec double d,
    @bs_evaluate double (vec double d) double_ops (@vec_ops double double_ops d) c t = Ok q /\
    vfinite d q /\ vreal d q = vreal d (nth 0 (bs_pts c) (@p0 _ _ (@vec_ops double double_ops d))).
Proof. exact bspline_start_double. Qed.
Print Assumptions C111_bspline_start.

Theorem C111_bspline_end : forall (d : nat) (c : bspline double (vec double d)) (t : double),
  let knots := map B2R (bs_knots c) in
  let p := bspline_degree (bs_pts c) knots in
  let n := length (bs_pts c) in
  valid_bspline (bs_pts c) knots -> knots_apart (/ IZR (10 ^ 15)) knots -> bs_periodic c = false ->
  (forall x, In x (bs_knots c) -> is_finite x = true /\ Rabs (B2R x) <= bpow radix2 1022) ->
  (forall a, In a (bs_pts c) -> vfinite d a) ->
  nth (n - 1) knots 0 < nth n knots 0 -> (forall i, (n <= i < n + p)%nat -> nth i knots 0 = nth n knots 0) ->
  is_finite t = true -> B2R t = nth n knots 0 ->
  exists q : vec double d,
    @bs_evaluate double (vec double d) double_ops (@vec_ops double double_ops d) c t = Ok q /\
    vfinite d q /\ vreal d q = vreal d (nth (n - 1) (bs_pts c) (@p0 _ _ (@vec_ops double double_ops d))).
Proof. exact bspline_end_double. Qed.
Print Assumptions C111_bspline_end.

(** The pieces of a split meet in the evaluated point, bit for bit. *)
Theorem C111_split_junction : forall (d : nat) (pts : list (vec double d)) (t : double) (n : nat),
  length pts = S n -> is_finite t = true -> 0 < B2R t < 1 ->
  exists (l r : list (vec double d)) (q : vec double d),
    @bz_split double (vec double d) double_ops (@vec_ops double double_ops d) (mk_bezier pts) t
      = Ok [mk_bezier l; mk_bezier r] /\
    @bz_evaluate double (vec double d) double_ops (@vec_ops double double_ops d) (mk_bezier pts) t = Ok q /\
    length l = S n /\ length r = S n /\
    let o := @p0 _ _ (@vec_ops double double_ops d) in
    nth 0 l o = nth 0 pts o /\ nth n l o = q /\ nth 0 r o = q /\ nth n r o = nth n pts o.
Proof. exact split_junction_double. Qed.
Print Assumptions C111_split_junction.

(** Concrete cases: the spline of [C110_case] is clamped at both ends, and the cubic curve of [C109_case]
    is split at 0.1. *)
Example C111_case : let knots := map B2R (bs_knots dspline) in
  (forall a, In a (bs_pts dspline) -> vfinite 2 a) /\
  nth 2 knots 0 < nth 3 knots 0 /\ (forall i, (1 <= i <= 2)%nat -> nth i knots 0 = nth 2 knots 0) /\
  nth 3 knots 0 < nth 4 knots 0 /\ (forall i, (4 <= i < 6)%nat -> nth i knots 0 = nth 4 knots 0) /\
  length (bs_pts dspline) = 4%nat /\
  is_finite (dofQ 0) = true /\ B2R (dofQ 0) = nth 2 knots 0 /\
  is_finite (dofQ 1) = true /\ B2R (dofQ 1) = nth 4 knots 0.
Proof. exact clamped_case. Qed.
