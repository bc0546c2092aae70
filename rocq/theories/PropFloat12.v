(** Second derivatives of Bezier curves with rounding (C126). *)
From Coq Require Import Reals Lra Lia ZArith QArith List Bool.
From Flocq Require Import Core IEEE754.BinarySingleNaN.
From Verif Require Import Monad Scalar Spec ModelCurve ModelBezier BezierThms SpecFloat ModelFloat FloatThms2 FloatThms3
  FloatCases FloatRuns FloatDeriv3.
Import ListNotations.
Local Open Scope R_scope.

(** * C126: the computed second derivative lies near the derivative [f''] of the derivative [f'] of the curve *)
Theorem C126_2nd_derivative_double : forall (d : nat) (pts : list (vec double d)) (t : double) (n : nat) (M : R),
  length pts = S n -> 0 <= M -> 10 * (INR n * INR n) * M <= bpow radix2 1023 -> 24 * INR n * unit_roundoff 53 <= 1 ->
  (forall p, In p pts -> vfinite d p /\ forall i, (i < d)%nat -> Rabs (coord d i (vreal d p)) <= M) ->
  is_finite t = true -> 0 <= B2R t <= 1 ->
  exists (q : vec double d) (f' f'' : R -> vec R d),
    @bz_evaluate_2nd_derivative double (vec double d) double_ops (@vec_ops double double_ops d) (mk_bezier pts) t = Ok q /\
    vfinite d q /\ (forall s, vderiv (bernstein_curve (map (vreal d) pts)) s (f' s)) /\ (forall s, vderiv f' s (f'' s)) /\
    forall i, (i < d)%nat ->
      Rabs (coord d i (vreal d q) - coord d i (f'' (B2R t)))
      <= INR n * (20 * unit_roundoff 53 * (INR n * (INR n - 1) * M) + 6 * underflow_error 53 1024).
Proof. exact (@derivative2_error 53 1024 prec64 max64). Qed.
Print Assumptions C126_2nd_derivative_double.

Theorem C126_2nd_derivative_float : forall (d : nat) (pts : list (vec float32 d)) (t : float32) (n : nat) (M : R),
  length pts = S n -> 0 <= M -> 10 * (INR n * INR n) * M <= bpow radix2 127 -> 24 * INR n * unit_roundoff 24 <= 1 ->
  (forall p, In p pts -> vfinite d p /\ forall i, (i < d)%nat -> Rabs (coord d i (vreal d p)) <= M) ->
  is_finite t = true -> 0 <= B2R t <= 1 ->
  exists (q : vec float32 d) (f' f'' : R -> vec R d),
    @bz_evaluate_2nd_derivative float32 (vec float32 d) float32_ops (@vec_ops float32 float32_ops d) (mk_bezier pts) t = Ok q /\
    vfinite d q /\ (forall s, vderiv (bernstein_curve (map (vreal d) pts)) s (f' s)) /\ (forall s, vderiv f' s (f'' s)) /\
    forall i, (i < d)%nat ->
      Rabs (coord d i (vreal d q) - coord d i (f'' (B2R t)))
      <= INR n * (20 * unit_roundoff 24 * (INR n * (INR n - 1) * M) + 6 * underflow_error 24 128).
Proof. exact (@derivative2_error 24 128 prec32 max32). Qed.
Print Assumptions C126_2nd_derivative_float.

(** The cubic curve of [C109_case] meets the hypotheses with [M = 4]. *)
Example C126_case : let pts := [dpt 0 1; dpt 1 3; dpt 4 (-2); dpt (1 # 3) 0] in let t := dofQ (1 # 10) in
  length pts = 4%nat /\ 0 <= 4 /\ 10 * (INR 3 * INR 3) * 4 <= bpow radix2 1023 /\ 24 * INR 3 * unit_roundoff 53 <= 1 /\
  (forall p, In p pts -> vfinite 2 p /\ forall i, (i < 2)%nat -> Rabs (coord 2 i (vreal 2 p)) <= 4) /\
  is_finite t = true /\ 0 <= B2R t <= 1.
Proof.
  destruct cubic_case as (H1 & H2 & H3 & H4 & H5). split; [exact H1|]. split; [lra|].
  split; [|split; [exact H3|split; [exact H4|exact H5]]].
  apply Rle_trans with (bpow radix2 9); [simpl; lra|apply bpow_le; lia].
Qed.
