(** Evaluation at arbitrary bit patterns, and derivatives with rounding (C109, C112, C113). *)
From Coq Require Import Reals Lra Lia ZArith QArith List Bool.
From Flocq Require Import Core IEEE754.BinarySingleNaN.
From Verif Require Import Monad Scalar Spec ModelCurve ModelBezier BezierThms ModelBSpline BSplineThms BSplineThms2
  SpecFloat ModelFloat FloatThms2 FloatThms3 FloatCases FloatRuns FloatDeriv FloatTotal.
Import ListNotations.
Local Open Scope R_scope.

(** The classes for degrees 0 to 3 compute the same bits as the generic class, so [C109_bezier_double]
    and [C111_bezier_start], [C111_bezier_end] hold of them as well. *)
Theorem C109_special_degrees : forall (d : nat) (pts : list (vec double d)) (t : double),
  let ev := @bz_evaluate double (vec double d) double_ops (@vec_ops double double_ops d) (mk_bezier pts) t in
  (length pts = 1%nat -> @bz0_evaluate double (vec double d) (mk_bezier pts) t = ev) /\
  (length pts = 2%nat -> @bz1_evaluate double (vec double d) double_ops (@vec_ops double double_ops d) (mk_bezier pts) t = ev) /\
  (length pts = 3%nat -> @bz2_evaluate double (vec double d) double_ops (@vec_ops double double_ops d) (mk_bezier pts) t = ev) /\
  (length pts = 4%nat -> @bz3_evaluate double (vec double d) double_ops (@vec_ops double double_ops d) (mk_bezier pts) t = ev).
Proof. exact special_double. Qed.
Print Assumptions C109_special_degrees.

(** * C112: no parameter breaks the evaluation of a B-spline *)

Theorem C112_any_parameter_partial : forall (d : nat) (c : bspline double (vec double d)) (t : double),
  let knots := map B2R (bs_knots c) in
  let n := length (bs_pts c) in
  valid_bspline (bs_pts c) knots -> (forall x, In x (bs_knots c) -> is_finite x = true) -> bs_periodic c = false ->
  (is_nan t = true -> nth (n - 1) knots 0 < nth n knots 0) ->
  exists q : vec double d, @bs_evaluate double (vec double d) double_ops (@vec_ops double double_ops d) c t = Ok q.
Proof. exact evaluate_any_double. Qed.
Print Assumptions C112_any_parameter_partial.

(** The last condition is needed: if the last span before the end of the domain is empty, NaN leads to
    an assertion failure, or without assertions to control points past the end. *)
Theorem C112_nan_refuted : exists c : bspline double (vec double 2),
  valid_bspline (bs_pts c) (map B2R (bs_knots c)) /\ (forall x, In x (bs_knots c) -> is_finite x = true) /\
  bs_periodic c = false /\
  @bs_evaluate double (vec double 2) double_ops (@vec_ops double double_ops 2) c B754_nan = Undef.
Proof. exact nan_refuted. Qed.
Print Assumptions C112_nan_refuted.

(** The spline of [C110_case] meets the hypotheses, also for NaN. *)
Example C112_case : let knots := map B2R (bs_knots dspline) in
  valid_bspline (bs_pts dspline) knots /\ (forall x, In x (bs_knots dspline) -> is_finite x = true) /\
  bs_periodic dspline = false /\
  nth (length (bs_pts dspline) - 1) knots 0 < nth (length (bs_pts dspline)) knots 0.
Proof.
  destruct spline_case as (_ & V & _ & P & F & _). destruct clamped_case as (_ & _ & _ & L & _).
  split; [exact V|]. split; [intros x Hx; apply (F x Hx)|]. split; [exact P|exact L].
Qed.

(** * C113: the rounding error of the derivative of a Bezier curve *)

Theorem C113_derivative_double : forall (d : nat) (pts : list (vec double d)) (t : double) (n : nat) (M : R),
  length pts = S n -> 0 <= M -> 4 * INR n * M <= bpow radix2 1023 -> 24 * INR n * unit_roundoff 53 <= 1 ->
  (forall p, In p pts -> vfinite d p /\ forall i, (i < d)%nat -> Rabs (coord d i (vreal d p)) <= M) ->
  is_finite t = true -> 0 <= B2R t <= 1 ->
  exists (q : vec double d) (f' : R -> vec R d),
    @bz_evaluate_derivative double (vec double d) double_ops (@vec_ops double double_ops d) (mk_bezier pts) t = Ok q /\
    vfinite d q /\ (forall s, vderiv (bernstein_curve (map (vreal d) pts)) s (f' s)) /\
    forall i, (i < d)%nat ->
      Rabs (coord d i (vreal d q) - coord d i (f' (B2R t)))
      <= INR n * (9 * INR n * unit_roundoff 53 * M + 4 * underflow_error 53 1024).
Proof. exact (@derivative_error 53 1024 prec64 max64). Qed.
Print Assumptions C113_derivative_double.

Theorem C113_derivative_float : forall (d : nat) (pts : list (vec float32 d)) (t : float32) (n : nat) (M : R),
  length pts = S n -> 0 <= M -> 4 * INR n * M <= bpow radix2 127 -> 24 * INR n * unit_roundoff 24 <= 1 ->
  (forall p, In p pts -> vfinite d p /\ forall i, (i < d)%nat -> Rabs (coord d i (vreal d p)) <= M) ->
  is_finite t = true -> 0 <= B2R t <= 1 ->
  exists (q : vec float32 d) (f' : R -> vec R d),
    @bz_evaluate_derivative float32 (vec float32 d) float32_ops (@vec_ops float32 float32_ops d) (mk_bezier pts) t = Ok q /\
    vfinite d q /\ (forall s, vderiv (bernstein_curve (map (vreal d) pts)) s (f' s)) /\
    forall i, (i < d)%nat ->
      Rabs (coord d i (vreal d q) - coord d i (f' (B2R t)))
      <= INR n * (9 * INR n * unit_roundoff 24 * M + 4 * underflow_error 24 128).
Proof. exact (@derivative_error 24 128 prec32 max32). Qed.
Print Assumptions C113_derivative_float.

(** The cubic curve of [C109_case] meets the hypotheses with [M = 4]. *)
Example C113_case : let pts := [dpt 0 1; dpt 1 3; dpt 4 (-2); dpt (1 # 3) 0] in let t := dofQ (1 # 10) in
  length pts = 4%nat /\ 0 <= 4 /\ 4 * INR 3 * 4 <= bpow radix2 1023 /\ 24 * INR 3 * unit_roundoff 53 <= 1 /\
  (forall p, In p pts -> vfinite 2 p /\ forall i, (i < 2)%nat -> Rabs (coord 2 i (vreal 2 p)) <= 4) /\
  is_finite t = true /\ 0 <= B2R t <= 1.
Proof.
  destruct cubic_case as (H1 & H2 & H3 & H4 & H5). split; [exact H1|]. split; [lra|].
  split; [|split; [exact H3|split; [exact H4|exact H5]]].
  apply Rle_trans with (bpow radix2 6); [simpl; lra|apply bpow_le; lia].
Qed.
