(** Periodic curves with rounding (C114). *)
From Coq Require Import Reals Lra Lia ZArith QArith List Bool.
From Flocq Require Import Core IEEE754.BinarySingleNaN.
From Verif Require Import Monad Scalar Spec ModelCurve ModelBezier BezierThms ModelBSpline BSplineThms BSplineThms2
  SpecFloat ModelFloat ModelFloatWrap FloatThms2 FloatThms3 FloatCases FloatRuns FloatWrap.
Import ListNotations.
Local Open Scope R_scope.

(** * C114: a periodic curve can be evaluated at every finite parameter, with rounding *)

(** The remainder is exact. *)
Theorem C114_fmod : forall x y : double, is_finite x = true -> is_finite y = true -> 0 < B2R y ->
  let r := @bfmod 53 1024 prec64 max64 x y in
  is_finite r = true /\ Rabs (B2R r) < B2R y /\ (exists k : Z, B2R x = IZR k * B2R y + B2R r) /\
  (0 <= B2R x -> 0 <= B2R r) /\ (B2R x <= 0 -> B2R r <= 0).
Proof. exact fmod_double. Qed.
Print Assumptions C114_fmod.

(** Domains that begin at 0: the assertion holds, the parameter is at most one rounding off the
    exact one, and exact for parameters that are not negative. *)
Theorem C114_wrap_partial : forall (a b t : double),
  is_finite a = true -> B2R a = 0 -> is_finite b = true -> 0 < B2R b -> is_finite t = true ->
  exists s, @f_unwrap 53 1024 prec64 max64 true a b t = Ok s /\ is_finite s = true /\ 0 <= B2R s <= B2R b /\
    exists k : Z, let r := B2R t - IZR k * B2R b in
      0 <= r < B2R b /\ Rabs (B2R s - r) <= unit_roundoff 53 * r /\ (0 <= B2R t -> B2R s = r).
Proof. exact unwrap_double. Qed.
Print Assumptions C114_wrap_partial.

(** A periodic Bezier curve at any finite parameter, however large. *)
Theorem C114_bezier : forall (d : nat) (pts : list (vec double d)) (t : double) (n : nat) (M : R),
  length pts = S n -> 0 <= M <= bpow radix2 1023 -> 24 * INR n * unit_roundoff 53 <= 1 ->
  (forall p, In p pts -> vfinite d p /\ forall i, (i < d)%nat -> Rabs (coord d i (vreal d p)) <= M) ->
  is_finite t = true ->
  exists (q : vec double d) (s : R) (k : Z),
    @f_bz_evaluate 53 1024 prec64 max64 d {| bz_pts := pts; bz_periodic := true |} t = Ok q /\ vfinite d q /\
    0 <= B2R t - IZR k < 1 /\ 0 <= s <= 1 /\ Rabs (s - (B2R t - IZR k)) <= unit_roundoff 53 /\ (0 <= B2R t -> s = B2R t - IZR k) /\
    forall i, (i < d)%nat ->
      Rabs (coord d i (vreal d q) - coord d i (bernstein_curve (map (vreal d) pts) s))
      <= INR n * (4 * unit_roundoff 53 * M + 3 * underflow_error 53 1024).
Proof. exact periodic_bezier_double. Qed.
Print Assumptions C114_bezier.

(** A periodic B-spline whose domain begins at 0 with a span that is not empty. *)
Theorem C114_bspline_partial : forall (d : nat) (c : bspline double (vec double d)) (t : double) (M : R),
  let knots := map B2R (bs_knots c) in
  let p := bspline_degree (bs_pts c) knots in
  let b := upper_of (bs_pts c) knots in
  valid_bspline (bs_pts c) knots -> knots_apart (/ IZR (10 ^ 15)) knots -> bs_periodic c = true ->
  (forall x, In x (bs_knots c) -> is_finite x = true /\ Rabs (B2R x) <= bpow radix2 1022) ->
  0 <= M <= bpow radix2 1023 -> 24 * INR p * unit_roundoff 53 <= 1 ->
  (forall a, In a (bs_pts c) -> vfinite d a /\ forall i, (i < d)%nat -> Rabs (coord d i (vreal d a)) <= M) ->
  lower_of (bs_pts c) knots = 0 -> nth p knots 0 < nth (p + 1) knots 0 -> is_finite t = true ->
  exists (q : vec double d) (s : R) (k : Z),
    @f_bs_evaluate 53 1024 prec64 max64 d c t = Ok q /\ vfinite d q /\
    0 <= B2R t - IZR k * b < b /\ 0 <= s <= b /\ Rabs (s - (B2R t - IZR k * b)) <= unit_roundoff 53 * b /\
    (0 <= B2R t -> s = B2R t - IZR k * b) /\
    forall i, (i < d)%nat ->
      Rabs (coord d i (vreal d q) - coord d i (bspline_curve (map (vreal d) (bs_pts c)) knots s))
      <= INR p * (14 * unit_roundoff 53 * M + (3 + 2 * M) * underflow_error 53 1024).
Proof. exact periodic_bspline_double. Qed.
Print Assumptions C114_bspline_partial.

(** Any domain: from its lower end upwards the assertion holds; below it, the assertion may fail, but
    a parameter that is returned lies in the domain.  The returned parameter is a whole number of
    periods away from the given one, up to rounding. *)
Theorem C114_wrap_any : forall (a b t : double),
  is_finite a = true -> is_finite b = true -> is_finite t = true -> B2R a < B2R b ->
  Rabs (B2R a) <= bpow radix2 1020 -> Rabs (B2R b) <= bpow radix2 1020 -> Rabs (B2R t) <= bpow radix2 1020 ->
  match @f_unwrap 53 1024 prec64 max64 true a b t with
  | Ok s => is_finite s = true /\ B2R a <= B2R s <= B2R b /\
      exists k : Z, Rabs (B2R s - (B2R t - IZR k * (B2R b - B2R a))) <=
        unit_roundoff 53 * (4 * Rabs (B2R t - B2R a) + 10 * (B2R b - B2R a) + 3 * Rabs (B2R a))
  | Undef => B2R t < B2R a
  | _ => False
  end.
Proof. exact unwrap_any_double. Qed.
Print Assumptions C114_wrap_any.

(** A periodic B-spline on any domain, at parameters from the lower end upwards. *)
Theorem C114_bspline_above_partial : forall (d : nat) (c : bspline double (vec double d)) (t : double) (M : R),
  let knots := map B2R (bs_knots c) in
  let p := bspline_degree (bs_pts c) knots in
  let a := lower_of (bs_pts c) knots in
  let b := upper_of (bs_pts c) knots in
  valid_bspline (bs_pts c) knots -> knots_apart (/ IZR (10 ^ 15)) knots -> bs_periodic c = true ->
  (forall x, In x (bs_knots c) -> is_finite x = true /\ Rabs (B2R x) <= bpow radix2 1020) ->
  0 <= M <= bpow radix2 1023 -> 24 * INR p * unit_roundoff 53 <= 1 ->
  (forall x, In x (bs_pts c) -> vfinite d x /\ forall i, (i < d)%nat -> Rabs (coord d i (vreal d x)) <= M) ->
  nth p knots 0 < nth (p + 1) knots 0 -> is_finite t = true -> a <= B2R t <= bpow radix2 1020 ->
  exists (q : vec double d) (s : R) (k : Z),
    @f_bs_evaluate 53 1024 prec64 max64 d c t = Ok q /\ vfinite d q /\ a <= s <= b /\
    Rabs (s - (B2R t - IZR k * (b - a))) <= unit_roundoff 53 * (4 * (B2R t - a) + 10 * (b - a) + 3 * Rabs a) /\
    forall i, (i < d)%nat ->
      Rabs (coord d i (vreal d q) - coord d i (bspline_curve (map (vreal d) (bs_pts c)) knots s))
      <= INR p * (14 * unit_roundoff 53 * M + (3 + 2 * M) * underflow_error 53 1024).
Proof. exact periodic_bspline_above. Qed.
Print Assumptions C114_bspline_above_partial.

(** The spline with the domain [-1, 3.4], at the parameter 7.3, meets the hypotheses. *)
Example C114_above_case :
  let c := wrap_spline in let t := above_param in
  let knots := map B2R (bs_knots c) in
  let p := bspline_degree (bs_pts c) knots in
  let a := lower_of (bs_pts c) knots in
  valid_bspline (bs_pts c) knots /\ knots_apart (/ IZR (10 ^ 15)) knots /\ bs_periodic c = true /\
  (forall x, In x (bs_knots c) -> is_finite x = true /\ Rabs (B2R x) <= bpow radix2 1020) /\
  0 <= 4 <= bpow radix2 1023 /\ 24 * INR p * unit_roundoff 53 <= 1 /\
  (forall x, In x (bs_pts c) -> vfinite 2 x /\ forall i, (i < 2)%nat -> Rabs (coord 2 i (vreal 2 x)) <= 4) /\
  nth p knots 0 < nth (p + 1) knots 0 /\ is_finite t = true /\ a <= B2R t <= bpow radix2 1020 /\
  a = -1 /\ upper_of (bs_pts c) knots < B2R t.
Proof. exact above_case. Qed.

(** Below other domains: the last addition may round to above the upper end, which the code asserts
    against.  The witness has the domain [-1, 3.4] and a parameter just below -1. *)
Theorem C114_wrap_refuted : exists (c : bspline double (vec double 2)) (t : double),
  valid_bspline (bs_pts c) (map B2R (bs_knots c)) /\ (forall x, In x (bs_knots c) -> is_finite x = true) /\
  bs_periodic c = true /\ is_finite t = true /\
  lower_of (bs_pts c) (map B2R (bs_knots c)) - unit_roundoff 51 <= B2R t < lower_of (bs_pts c) (map B2R (bs_knots c)) /\
  @f_bs_evaluate 53 1024 prec64 max64 2 c t = Undef.
Proof. exact wrap_refuted. Qed.
Print Assumptions C114_wrap_refuted.

(** The parameter -7.3, the domain [0, 1], the points of [C109_case], and the periodic version of the
    spline of [C110_case] meet the hypotheses. *)
Example C114_case :
  (is_finite far_param = true /\ -8 <= B2R far_param <= -7) /\
  (let pts := [dpt 0 1; dpt 1 3; dpt 4 (-2); dpt (1 # 3) 0] in
   length pts = 4%nat /\ 0 <= 4 <= bpow radix2 1023 /\ 24 * INR 3 * unit_roundoff 53 <= 1 /\
   (forall p, In p pts -> vfinite 2 p /\ forall i, (i < 2)%nat -> Rabs (coord 2 i (vreal 2 p)) <= 4)) /\
  (let knots := map B2R (bs_knots pspline) in
   let p := bspline_degree (bs_pts pspline) knots in
   valid_bspline (bs_pts pspline) knots /\ knots_apart (/ IZR (10 ^ 15)) knots /\ bs_periodic pspline = true /\
   (forall x, In x (bs_knots pspline) -> is_finite x = true /\ Rabs (B2R x) <= bpow radix2 1022) /\
   0 <= 4 <= bpow radix2 1023 /\ 24 * INR p * unit_roundoff 53 <= 1 /\
   (forall a, In a (bs_pts pspline) -> vfinite 2 a /\ forall i, (i < 2)%nat -> Rabs (coord 2 i (vreal 2 a)) <= 4) /\
   lower_of (bs_pts pspline) knots = 0 /\ nth p knots 0 < nth (p + 1) knots 0).
Proof.
  split; [exact far_value|]. split; [|exact pspline_case].
  destruct cubic_case as (H1 & H2 & H3 & H4 & _). split; [exact H1|]. split; [exact H2|]. split; [exact H3|exact H4].
Qed.
