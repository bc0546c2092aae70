(** Splitting of B-spline curves with rounding (C123). *)
From Coq Require Import Reals Lra Lia ZArith QArith List Bool.
From Flocq Require Import Core IEEE754.BinarySingleNaN.
From Verif Require Import Monad Scalar Spec ModelCurve ModelBSpline BSplineFacts SpecFloat ModelFloat FloatCases FloatRuns FloatBSplit.
Import ListNotations.
Local Open Scope R_scope.

(** * C123: the computed pieces divide the domain at t exactly and follow the given curve. *)
Theorem C123_split_double : forall (d : nat) (c : bspline double (vec double d)) (t : double) (M : R),
  let knots := map B2R (bs_knots c) in
  let rp := map (vreal d) (bs_pts c) in
  let p := bspline_degree rp knots in
  valid_bspline rp knots -> knots_apart (/ IZR (10 ^ 16)) knots -> regular_start rp knots -> (1 <= p)%nat ->
  (forall x, In x (bs_knots c) -> is_finite x = true /\ Rabs (B2R x) <= bpow radix2 1022) ->
  0 <= M <= bpow radix2 1023 -> 24 * INR p * unit_roundoff 53 <= 1 ->
  (forall a, In a (bs_pts c) -> vfinite d a /\ forall i, (i < d)%nat -> Rabs (coord d i (vreal d a)) <= M) ->
  is_finite t = true -> lower_of rp knots < B2R t < upper_of rp knots ->
  (forall x, In x knots -> x = B2R t \/ / IZR (10 ^ 16) < Rabs (x - B2R t)) ->
  exists c1 c2 : bspline double (vec double d),
    let k1 := map B2R (bs_knots c1) in
    let r1 := map (vreal d) (bs_pts c1) in
    let k2 := map B2R (bs_knots c2) in
    let r2 := map (vreal d) (bs_pts c2) in
    @split_bspline double (vec double d) double_ops (@vec_ops double double_ops d) c t = Ok [c1; c2] /\
    valid_bspline r1 k1 /\ valid_bspline r2 k2 /\ bspline_degree r1 k1 = p /\ bspline_degree r2 k2 = p /\
    lower_of r1 k1 = lower_of rp knots /\ upper_of r1 k1 = B2R t /\
    lower_of r2 k2 = B2R t /\ upper_of r2 k2 = upper_of rp knots /\
    (forall a, In a (bs_pts c1) \/ In a (bs_pts c2) -> vfinite d a) /\
    (forall x, In x (bs_knots c1) \/ In x (bs_knots c2) -> is_finite x = true) /\
    (forall x, lower_of rp knots <= x <= B2R t -> (x < B2R t \/ (count_occ Req_EM_T knots (B2R t) <= p)%nat) ->
      forall i, (i < d)%nat ->
        Rabs (coord d i (bspline_curve r1 k1 x) - coord d i (bspline_curve rp knots x))
        <= INR p * (14 * unit_roundoff 53 * M + (3 + 2 * M) * underflow_error 53 1024)) /\
    (forall x, B2R t <= x <= upper_of rp knots ->
      forall i, (i < d)%nat ->
        Rabs (coord d i (bspline_curve r2 k2 x) - coord d i (bspline_curve rp knots x))
        <= INR p * (14 * unit_roundoff 53 * M + (3 + 2 * M) * underflow_error 53 1024)).
Proof. exact split_double. Qed.
Print Assumptions C123_split_double.

Theorem C123_split_float : forall (d : nat) (c : bspline float32 (vec float32 d)) (t : float32) (M : R),
  let knots := map B2R (bs_knots c) in
  let rp := map (vreal d) (bs_pts c) in
  let p := bspline_degree rp knots in
  valid_bspline rp knots -> knots_apart (/ IZR (10 ^ 16)) knots -> regular_start rp knots -> (1 <= p)%nat ->
  (forall x, In x (bs_knots c) -> is_finite x = true /\ Rabs (B2R x) <= bpow radix2 126) ->
  0 <= M <= bpow radix2 127 -> 24 * INR p * unit_roundoff 24 <= 1 ->
  (forall a, In a (bs_pts c) -> vfinite d a /\ forall i, (i < d)%nat -> Rabs (coord d i (vreal d a)) <= M) ->
  is_finite t = true -> lower_of rp knots < B2R t < upper_of rp knots ->
  (forall x, In x knots -> x = B2R t \/ / IZR (10 ^ 16) < Rabs (x - B2R t)) ->
  exists c1 c2 : bspline float32 (vec float32 d),
    let k1 := map B2R (bs_knots c1) in
    let r1 := map (vreal d) (bs_pts c1) in
    let k2 := map B2R (bs_knots c2) in
    let r2 := map (vreal d) (bs_pts c2) in
    @split_bspline float32 (vec float32 d) float32_ops (@vec_ops float32 float32_ops d) c t = Ok [c1; c2] /\
    valid_bspline r1 k1 /\ valid_bspline r2 k2 /\ bspline_degree r1 k1 = p /\ bspline_degree r2 k2 = p /\
    lower_of r1 k1 = lower_of rp knots /\ upper_of r1 k1 = B2R t /\
    lower_of r2 k2 = B2R t /\ upper_of r2 k2 = upper_of rp knots /\
    (forall a, In a (bs_pts c1) \/ In a (bs_pts c2) -> vfinite d a) /\
    (forall x, In x (bs_knots c1) \/ In x (bs_knots c2) -> is_finite x = true) /\
    (forall x, lower_of rp knots <= x <= B2R t -> (x < B2R t \/ (count_occ Req_EM_T knots (B2R t) <= p)%nat) ->
      forall i, (i < d)%nat ->
        Rabs (coord d i (bspline_curve r1 k1 x) - coord d i (bspline_curve rp knots x))
        <= INR p * (14 * unit_roundoff 24 * M + (3 + 2 * M) * underflow_error 24 128)) /\
    (forall x, B2R t <= x <= upper_of rp knots ->
      forall i, (i < d)%nat ->
        Rabs (coord d i (bspline_curve r2 k2 x) - coord d i (bspline_curve rp knots x))
        <= INR p * (14 * unit_roundoff 24 * M + (3 + 2 * M) * underflow_error 24 128)).
Proof. exact split_float. Qed.
Print Assumptions C123_split_float.

Example C123_case : let c := dspline in let t := dofQ (3 # 10) in
  let knots := map B2R (bs_knots c) in
  let rp := map (vreal 2) (bs_pts c) in
  let p := bspline_degree rp knots in
  p = 2%nat /\ valid_bspline rp knots /\ knots_apart (/ IZR (10 ^ 16)) knots /\ regular_start rp knots /\ (1 <= p)%nat /\
  (forall x, In x (bs_knots c) -> is_finite x = true /\ Rabs (B2R x) <= bpow radix2 1022) /\
  0 <= 4 <= bpow radix2 1023 /\ 24 * INR p * unit_roundoff 53 <= 1 /\
  (forall a, In a (bs_pts c) -> vfinite 2 a /\ forall i, (i < 2)%nat -> Rabs (coord 2 i (vreal 2 a)) <= 4) /\
  is_finite t = true /\ lower_of rp knots < B2R t < upper_of rp knots /\
  (forall x, In x knots -> x = B2R t \/ / IZR (10 ^ 16) < Rabs (x - B2R t)) /\
  (count_occ Req_EM_T knots (B2R t) <= p)%nat.
Proof. exact dsplit_case. Qed.
