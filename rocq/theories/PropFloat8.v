(** Conversion to Bezier segments with rounding (C122). *)
From Coq Require Import Reals Lra Lia ZArith QArith List Bool.
From Flocq Require Import Core IEEE754.BinarySingleNaN.
From Verif Require Import Monad Scalar Spec ModelCurve ModelBezier ModelBSpline BSplineFacts SpecFloat ModelFloat FloatCases FloatRuns FloatConvert.
Import ListNotations.
Local Open Scope R_scope.

(** * C122: the bounds are the knots of the domain, without rounding; each computed segment follows the given
    curve on its interval. *)
Theorem C122_convert_double : forall (d : nat) (c : bspline double (vec double d)) (M : R),
  let knots := map B2R (bs_knots c) in
  let rp := map (vreal d) (bs_pts c) in
  let p := bspline_degree rp knots in
  let L := (p * (length knots + 2))%nat in
  valid_bspline rp knots -> knots_apart (/ IZR (10 ^ 16)) knots ->
  (forall x, In x (bs_knots c) -> is_finite x = true /\ Rabs (B2R x) <= bpow radix2 1022) ->
  0 <= M <= bpow radix2 1023 -> 24 * INR L * unit_roundoff 53 <= 1 ->
  (forall a, In a (bs_pts c) -> vfinite d a /\ forall i, (i < d)%nat -> Rabs (coord d i (vreal d a)) <= M) ->
  nth p knots 0 < nth (p + 1) knots 0 ->
  exists (segs : list (bezier (vec double d))) (bounds : list double),
    let rb := map B2R bounds in
    @bs_convert_to_Bezier double (vec double d) double_ops (@vec_ops double double_ops d) c = Ok (segs, bounds) /\
    length bounds = S (length segs) /\ (forall x, In x bounds -> is_finite x = true) /\
    nth 0 rb 0 = lower_of rp knots /\ nth (length segs) rb 0 = upper_of rp knots /\
    (forall x, In x rb <-> (In x knots /\ lower_of rp knots <= x <= upper_of rp knots)) /\
    (forall j, (j < length segs)%nat -> nth j rb 0 < nth (j + 1) rb 0) /\
    forall j, (j < length segs)%nat -> exists l, nth_error segs j = Some (mk_bezier l) /\
      length l = S p /\ (forall a, In a l -> vfinite d a) /\
      forall x, (nth j rb 0 <= x < nth (j + 1) rb 0 \/
                 (x = nth (j + 1) rb 0 /\ (S j = length segs \/ (count_occ Req_EM_T knots x <= p)%nat))) ->
        forall i, (i < d)%nat ->
          Rabs (coord d i (bernstein_curve (map (vreal d) l) ((x - nth j rb 0) / (nth (j + 1) rb 0 - nth j rb 0)))
                - coord d i (bspline_curve rp knots x))
          <= INR L * (14 * unit_roundoff 53 * M + (3 + 2 * M) * underflow_error 53 1024).
Proof. exact convert_double. Qed.
Print Assumptions C122_convert_double.

Theorem C122_convert_float : forall (d : nat) (c : bspline float32 (vec float32 d)) (M : R),
  let knots := map B2R (bs_knots c) in
  let rp := map (vreal d) (bs_pts c) in
  let p := bspline_degree rp knots in
  let L := (p * (length knots + 2))%nat in
  valid_bspline rp knots -> knots_apart (/ IZR (10 ^ 16)) knots ->
  (forall x, In x (bs_knots c) -> is_finite x = true /\ Rabs (B2R x) <= bpow radix2 126) ->
  0 <= M <= bpow radix2 127 -> 24 * INR L * unit_roundoff 24 <= 1 ->
  (forall a, In a (bs_pts c) -> vfinite d a /\ forall i, (i < d)%nat -> Rabs (coord d i (vreal d a)) <= M) ->
  nth p knots 0 < nth (p + 1) knots 0 ->
  exists (segs : list (bezier (vec float32 d))) (bounds : list float32),
    let rb := map B2R bounds in
    @bs_convert_to_Bezier float32 (vec float32 d) float32_ops (@vec_ops float32 float32_ops d) c = Ok (segs, bounds) /\
    length bounds = S (length segs) /\ (forall x, In x bounds -> is_finite x = true) /\
    nth 0 rb 0 = lower_of rp knots /\ nth (length segs) rb 0 = upper_of rp knots /\
    (forall x, In x rb <-> (In x knots /\ lower_of rp knots <= x <= upper_of rp knots)) /\
    (forall j, (j < length segs)%nat -> nth j rb 0 < nth (j + 1) rb 0) /\
    forall j, (j < length segs)%nat -> exists l, nth_error segs j = Some (mk_bezier l) /\
      length l = S p /\ (forall a, In a l -> vfinite d a) /\
      forall x, (nth j rb 0 <= x < nth (j + 1) rb 0 \/
                 (x = nth (j + 1) rb 0 /\ (S j = length segs \/ (count_occ Req_EM_T knots x <= p)%nat))) ->
        forall i, (i < d)%nat ->
          Rabs (coord d i (bernstein_curve (map (vreal d) l) ((x - nth j rb 0) / (nth (j + 1) rb 0 - nth j rb 0)))
                - coord d i (bspline_curve rp knots x))
          <= INR L * (14 * unit_roundoff 24 * M + (3 + 2 * M) * underflow_error 24 128).
Proof. exact convert_float. Qed.
Print Assumptions C122_convert_float.

Example C122_case : let c := dspline in
  let knots := map B2R (bs_knots c) in
  let rp := map (vreal 2) (bs_pts c) in
  let p := bspline_degree rp knots in
  let L := (p * (length knots + 2))%nat in
  p = 2%nat /\ L = 18%nat /\ valid_bspline rp knots /\ knots_apart (/ IZR (10 ^ 16)) knots /\
  (forall x, In x (bs_knots c) -> is_finite x = true /\ Rabs (B2R x) <= bpow radix2 1022) /\
  0 <= 4 <= bpow radix2 1023 /\ 24 * INR L * unit_roundoff 53 <= 1 /\
  (forall a, In a (bs_pts c) -> vfinite 2 a /\ forall i, (i < 2)%nat -> Rabs (coord 2 i (vreal 2 a)) <= 4) /\
  nth p knots 0 < nth (p + 1) knots 0.
Proof. exact dconvert_case. Qed.
