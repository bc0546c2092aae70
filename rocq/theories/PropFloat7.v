(** Knot insertion with rounding (C121). *)
From Coq Require Import Reals Lra Lia ZArith QArith List Bool Permutation.
From Flocq Require Import Core IEEE754.BinarySingleNaN.
From Verif Require Import Monad Scalar Spec ModelCurve ModelBSpline BSplineFacts SpecFloat ModelFloat FloatCases FloatRuns FloatInsert.
Import ListNotations.
Local Open Scope R_scope.

(** * C121: the curve with the computed control points and knots lies near the given curve on the whole domain;
    the knots are the given ones and [r] copies of [t], without rounding. *)
Theorem C121_insert_double : forall (d : nat) (c : bspline double (vec double d)) (t : double) (r : nat) (M : R),
  let knots := map B2R (bs_knots c) in
  let rp := map (vreal d) (bs_pts c) in
  let p := bspline_degree rp knots in
  valid_bspline rp knots -> knots_apart (/ IZR (10 ^ 16)) knots ->
  (forall x, In x (bs_knots c) -> is_finite x = true /\ Rabs (B2R x) <= bpow radix2 1022) ->
  0 <= M <= bpow radix2 1023 -> 24 * INR p * unit_roundoff 53 <= 1 ->
  (forall a, In a (bs_pts c) -> vfinite d a /\ forall i, (i < d)%nat -> Rabs (coord d i (vreal d a)) <= M) ->
  is_finite t = true -> lower_of rp knots <= B2R t <= upper_of rp knots ->
  (forall x, In x knots -> x = B2R t \/ / IZR (10 ^ 16) < Rabs (x - B2R t)) ->
  regular_start rp knots -> (nth p knots 0 < nth (p + 1) knots 0 \/ lower_of rp knots < B2R t) ->
  (1 <= r)%nat -> (r + count_occ Req_EM_T knots (B2R t) <= p)%nat ->
  exists c1 : bspline double (vec double d),
    let knots1 := map B2R (bs_knots c1) in
    let rp1 := map (vreal d) (bs_pts c1) in
    @bs_insert_knot double (vec double d) double_ops (@vec_ops double double_ops d) c t (Z.of_nat r) = Ok c1 /\
    bs_periodic c1 = bs_periodic c /\ valid_bspline rp1 knots1 /\ bspline_degree rp1 knots1 = p /\
    (forall x, In x (bs_knots c1) -> is_finite x = true) /\ (forall a, In a (bs_pts c1) -> vfinite d a) /\
    Permutation knots1 (repeat (B2R t) r ++ knots) /\
    lower_of rp1 knots1 = lower_of rp knots /\ upper_of rp1 knots1 = upper_of rp knots /\
    forall x, lower_of rp knots <= x <= upper_of rp knots ->
      forall i, (i < d)%nat ->
        Rabs (coord d i (bspline_curve rp1 knots1 x) - coord d i (bspline_curve rp knots x))
        <= INR r * (14 * unit_roundoff 53 * M + (3 + 2 * M) * underflow_error 53 1024).
Proof. exact insert_double. Qed.
Print Assumptions C121_insert_double.

Theorem C121_insert_float : forall (d : nat) (c : bspline float32 (vec float32 d)) (t : float32) (r : nat) (M : R),
  let knots := map B2R (bs_knots c) in
  let rp := map (vreal d) (bs_pts c) in
  let p := bspline_degree rp knots in
  valid_bspline rp knots -> knots_apart (/ IZR (10 ^ 16)) knots ->
  (forall x, In x (bs_knots c) -> is_finite x = true /\ Rabs (B2R x) <= bpow radix2 126) ->
  0 <= M <= bpow radix2 127 -> 24 * INR p * unit_roundoff 24 <= 1 ->
  (forall a, In a (bs_pts c) -> vfinite d a /\ forall i, (i < d)%nat -> Rabs (coord d i (vreal d a)) <= M) ->
  is_finite t = true -> lower_of rp knots <= B2R t <= upper_of rp knots ->
  (forall x, In x knots -> x = B2R t \/ / IZR (10 ^ 16) < Rabs (x - B2R t)) ->
  regular_start rp knots -> (nth p knots 0 < nth (p + 1) knots 0 \/ lower_of rp knots < B2R t) ->
  (1 <= r)%nat -> (r + count_occ Req_EM_T knots (B2R t) <= p)%nat ->
  exists c1 : bspline float32 (vec float32 d),
    let knots1 := map B2R (bs_knots c1) in
    let rp1 := map (vreal d) (bs_pts c1) in
    @bs_insert_knot float32 (vec float32 d) float32_ops (@vec_ops float32 float32_ops d) c t (Z.of_nat r) = Ok c1 /\
    bs_periodic c1 = bs_periodic c /\ valid_bspline rp1 knots1 /\ bspline_degree rp1 knots1 = p /\
    (forall x, In x (bs_knots c1) -> is_finite x = true) /\ (forall a, In a (bs_pts c1) -> vfinite d a) /\
    Permutation knots1 (repeat (B2R t) r ++ knots) /\
    lower_of rp1 knots1 = lower_of rp knots /\ upper_of rp1 knots1 = upper_of rp knots /\
    forall x, lower_of rp knots <= x <= upper_of rp knots ->
      forall i, (i < d)%nat ->
        Rabs (coord d i (bspline_curve rp1 knots1 x) - coord d i (bspline_curve rp knots x))
        <= INR r * (14 * unit_roundoff 24 * M + (3 + 2 * M) * underflow_error 24 128).
Proof. exact insert_float. Qed.
Print Assumptions C121_insert_float.

(** [regular_start] and the condition on [t] follow from the last but two. *)
Example C121_case : let c := dspline in let t := dofQ (3 # 10) in let r := 2%nat in
  let knots := map B2R (bs_knots c) in
  let rp := map (vreal 2) (bs_pts c) in
  let p := bspline_degree rp knots in
  p = 2%nat /\ valid_bspline rp knots /\ knots_apart (/ IZR (10 ^ 16)) knots /\
  (forall x, In x (bs_knots c) -> is_finite x = true /\ Rabs (B2R x) <= bpow radix2 1022) /\
  0 <= 4 <= bpow radix2 1023 /\ 24 * INR p * unit_roundoff 53 <= 1 /\
  (forall a, In a (bs_pts c) -> vfinite 2 a /\ forall i, (i < 2)%nat -> Rabs (coord 2 i (vreal 2 a)) <= 4) /\
  is_finite t = true /\ lower_of rp knots <= B2R t <= upper_of rp knots /\
  (forall x, In x knots -> x = B2R t \/ / IZR (10 ^ 16) < Rabs (x - B2R t)) /\
  nth p knots 0 < nth (p + 1) knots 0 /\ (1 <= r)%nat /\ (r + count_occ Req_EM_T knots (B2R t) <= p)%nat.
Proof. exact dinsert_case. Qed.
