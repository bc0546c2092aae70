(** Derivatives of the Bezier classes for the degrees 0 to 3, with rounding (C131). *)
From Coq Require Import Reals Lra Lia ZArith QArith List Bool.
From Flocq Require Import Core IEEE754.BinarySingleNaN.
From Verif Require Import Monad Scalar Spec ModelCurve ModelBezier ModelPatch BezierThms
  SpecFloat ModelFloat FloatCases FloatRuns FloatDeriv FloatDeriv5.
Import ListNotations.
Local Open Scope R_scope.

(** [bzt_evaluate_derivative n] is the derivative of the class for the degree [n]; for the degrees 2 and 3 it
    scales a difference of two points instead of evaluating a curve of differences as the generic class of
    [C113_derivative_double] does. *)
Theorem C131_static_derivative_double : forall (d : nat) (pts : list (vec double d)) (t : double) (n : nat) (M : R),
  (n <= 3)%nat -> length pts = S n -> 0 <= M -> 5 * INR n * (M + 1) <= bpow radix2 1023 -> 24 * INR n * unit_roundoff 53 <= 1 ->
  (forall p, In p pts -> vfinite d p /\ forall i, (i < d)%nat -> Rabs (coord d i (vreal d p)) <= M) ->
  is_finite t = true -> 0 <= B2R t <= 1 ->
  exists (q : vec double d) (f' : R -> vec R d),
    @bzt_evaluate_derivative double (vec double d) double_ops (@vec_ops double double_ops d) (Z.of_nat n) (mk_bezier pts) t = Ok q /\
    vfinite d q /\ (forall s, vderiv (bernstein_curve (map (vreal d) pts)) s (f' s)) /\
    forall i, (i < d)%nat ->
      Rabs (coord d i (vreal d q) - coord d i (f' (B2R t)))
      <= INR n * (9 * INR n * unit_roundoff 53 * M + 6 * INR n * underflow_error 53 1024).
Proof. exact (@static_derivative_error 53 1024 prec64 max64). Qed.
Print Assumptions C131_static_derivative_double.

Theorem C131_static_derivative_float : forall (d : nat) (pts : list (vec float32 d)) (t : float32) (n : nat) (M : R),
  (n <= 3)%nat -> length pts = S n -> 0 <= M -> 5 * INR n * (M + 1) <= bpow radix2 127 -> 24 * INR n * unit_roundoff 24 <= 1 ->
  (forall p, In p pts -> vfinite d p /\ forall i, (i < d)%nat -> Rabs (coord d i (vreal d p)) <= M) ->
  is_finite t = true -> 0 <= B2R t <= 1 ->
  exists (q : vec float32 d) (f' : R -> vec R d),
    @bzt_evaluate_derivative float32 (vec float32 d) float32_ops (@vec_ops float32 float32_ops d) (Z.of_nat n) (mk_bezier pts) t = Ok q /\
    vfinite d q /\ (forall s, vderiv (bernstein_curve (map (vreal d) pts)) s (f' s)) /\
    forall i, (i < d)%nat ->
      Rabs (coord d i (vreal d q) - coord d i (f' (B2R t)))
      <= INR n * (9 * INR n * unit_roundoff 24 * M + 6 * INR n * underflow_error 24 128).
Proof. exact (@static_derivative_error 24 128 prec32 max32). Qed.
Print Assumptions C131_static_derivative_float.

(** The cubic curve of [C109_case] meets the hypotheses with [M = 4]. *)
Example C131_case : let pts := [dpt 0 1; dpt 1 3; dpt 4 (-2); dpt (1 # 3) 0] in let t := dofQ (1 # 10) in
  (3 <= 3)%nat /\ length pts = 4%nat /\ 0 <= 4 /\ 5 * INR 3 * (4 + 1) <= bpow radix2 1023 /\ 24 * INR 3 * unit_roundoff 53 <= 1 /\
  (forall p, In p pts -> vfinite 2 p /\ forall i, (i < 2)%nat -> Rabs (coord 2 i (vreal 2 p)) <= 4) /\
  is_finite t = true /\ 0 <= B2R t <= 1.
Proof.
  destruct cubic_case as (H1 & H2 & H3 & H4 & H5). split; [lia|]. split; [exact H1|]. split; [lra|].
  split; [|split; [exact H3|split; [exact H4|exact H5]]].
  apply Rle_trans with (bpow radix2 7); [simpl; lra|apply bpow_le; lia].
Qed.
