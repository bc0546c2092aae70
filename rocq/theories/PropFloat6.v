(** Derivatives of B-spline curves with rounding (C120). *)
From Coq Require Import Reals Lra Lia ZArith QArith List Bool.
From Flocq Require Import Core IEEE754.BinarySingleNaN.
From Verif Require Import Monad Scalar Spec ModelCurve ModelBSpline BSplineFacts SpecFloat ModelFloat FloatCases FloatRuns FloatDeriv2.
Import ListNotations.
Local Open Scope R_scope.

(** * C120: the computed derivative lies near the derivative [f'] of the polynomial piece [f] that the curve
    follows on the knot span of the parameter; [h] is a distance between different knots. *)
Theorem C120_derivative_double : forall (d : nat) (c : bspline double (vec double d)) (t : double) (M h : R),
  let knots := map B2R (bs_knots c) in
  let rp := map (vreal d) (bs_pts c) in
  let p := bspline_degree rp knots in
  let L := 2 * (INR p / h) * M in
  valid_bspline rp knots -> / IZR (10 ^ 15) <= h -> knots_apart h knots -> bs_periodic c = false ->
  (forall x, In x (bs_knots c) -> is_finite x = true /\ Rabs (B2R x) <= bpow radix2 1022) ->
  0 <= M <= bpow radix2 1022 -> L <= bpow radix2 1022 -> 24 * INR p * unit_roundoff 53 <= 1 ->
  (forall a, In a (bs_pts c) -> vfinite d a /\ forall i, (i < d)%nat -> Rabs (coord d i (vreal d a)) <= M) ->
  is_finite t = true -> lower_of rp knots <= B2R t <= upper_of rp knots ->
  (nth p knots 0 < nth (p + 1) knots 0 \/ lower_of rp knots < B2R t) ->
  exists (q : vec double d) (k : nat) (f f' : R -> vec R d),
    @bs_evaluate_derivative double (vec double d) double_ops (@vec_ops double double_ops d) c t = Ok q /\ vfinite d q /\
    span_set knots (upper_of rp knots) k (B2R t) /\ nth k knots 0 < nth (k + 1) knots 0 /\
    (forall x, span_set knots (upper_of rp knots) k x -> (nth p knots 0 < nth (p + 1) knots 0 \/ lower_of rp knots < x) ->
       lower_of rp knots <= x <= upper_of rp knots /\ bspline_curve rp knots x = f x) /\
    (forall x, vderiv f x (f' x)) /\
    forall i, (i < d)%nat ->
      Rabs (coord d i (vreal d q) - coord d i (f' (B2R t)))
      <= INR p * (17 * unit_roundoff 53 * L + (4 + 4 * M + 3 * L) * underflow_error 53 1024).
Proof. exact bspline_derivative_double. Qed.
Print Assumptions C120_derivative_double.

Theorem C120_derivative_float : forall (d : nat) (c : bspline float32 (vec float32 d)) (t : float32) (M h : R),
  let knots := map B2R (bs_knots c) in
  let rp := map (vreal d) (bs_pts c) in
  let p := bspline_degree rp knots in
  let L := 2 * (INR p / h) * M in
  valid_bspline rp knots -> / IZR (10 ^ 15) <= h -> knots_apart h knots -> bs_periodic c = false ->
  (forall x, In x (bs_knots c) -> is_finite x = true /\ Rabs (B2R x) <= bpow radix2 126) ->
  0 <= M <= bpow radix2 126 -> L <= bpow radix2 126 -> 24 * INR p * unit_roundoff 24 <= 1 ->
  (forall a, In a (bs_pts c) -> vfinite d a /\ forall i, (i < d)%nat -> Rabs (coord d i (vreal d a)) <= M) ->
  is_finite t = true -> lower_of rp knots <= B2R t <= upper_of rp knots ->
  (nth p knots 0 < nth (p + 1) knots 0 \/ lower_of rp knots < B2R t) ->
  exists (q : vec float32 d) (k : nat) (f f' : R -> vec R d),
    @bs_evaluate_derivative float32 (vec float32 d) float32_ops (@vec_ops float32 float32_ops d) c t = Ok q /\ vfinite d q /\
    span_set knots (upper_of rp knots) k (B2R t) /\ nth k knots 0 < nth (k + 1) knots 0 /\
    (forall x, span_set knots (upper_of rp knots) k x -> (nth p knots 0 < nth (p + 1) knots 0 \/ lower_of rp knots < x) ->
       lower_of rp knots <= x <= upper_of rp knots /\ bspline_curve rp knots x = f x) /\
    (forall x, vderiv f x (f' x)) /\
    forall i, (i < d)%nat ->
      Rabs (coord d i (vreal d q) - coord d i (f' (B2R t)))
      <= INR p * (17 * unit_roundoff 24 * L + (4 + 4 * M + 3 * L) * underflow_error 24 128).
Proof. exact bspline_derivative_float. Qed.
Print Assumptions C120_derivative_float.

(** The spline of [C110_case] meets the hypotheses with [M = 4], [h = 1/4]. *)
Example C120_case : let c := dspline in let t := dofQ (3 # 10) in
  let knots := map B2R (bs_knots c) in
  let rp := map (vreal 2) (bs_pts c) in
  let p := bspline_degree rp knots in
  let h := / 4 in
  let L := 2 * (INR p / h) * 4 in
  p = 2%nat /\ valid_bspline rp knots /\ / IZR (10 ^ 15) <= h /\ knots_apart h knots /\ bs_periodic c = false /\
  (forall x, In x (bs_knots c) -> is_finite x = true /\ Rabs (B2R x) <= bpow radix2 1022) /\
  0 <= 4 <= bpow radix2 1022 /\ L <= bpow radix2 1022 /\ 24 * INR p * unit_roundoff 53 <= 1 /\
  (forall a, In a (bs_pts c) -> vfinite 2 a /\ forall i, (i < 2)%nat -> Rabs (coord 2 i (vreal 2 a)) <= 4) /\
  is_finite t = true /\ lower_of rp knots <= B2R t <= upper_of rp knots /\
  nth p knots 0 < nth (p + 1) knots 0.
Proof. exact dspline_derivative_case. Qed.
