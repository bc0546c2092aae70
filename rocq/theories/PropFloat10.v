(** Degree elevation with rounding (C124). *)
From Coq Require Import Reals Lra Lia ZArith QArith List Bool.
From Flocq Require Import Core IEEE754.BinarySingleNaN.
From Verif Require Import Monad Scalar Spec ModelCurve ModelBezier BezierThms SpecFloat ModelFloat FloatCases FloatRuns FloatElevate.
Import ListNotations.
Local Open Scope R_scope.

(** * C124: elevating k times keeps the end points and the curve up to rounding
    ([repeat_res k f] runs [f] k times). *)
Theorem C124_elevate_double : forall (d : nat) (c : bezier (vec double d)) (k n : nat) (M : R),
  length (bz_pts c) = S n -> 0 <= M <= bpow radix2 1023 -> 24 * INR (S n + k) * unit_roundoff 53 <= 1 ->
  (forall a, In a (bz_pts c) -> vfinite d a /\ forall i, (i < d)%nat -> Rabs (coord d i (vreal d a)) <= M) ->
  exists l : list (vec double d),
    repeat_res k (@bz_elevate_degree double (vec double d) double_ops (@vec_ops double double_ops d)) c
      = Ok {| bz_pts := l; bz_periodic := bz_periodic c |} /\
    length l = (S n + k)%nat /\ (forall a, In a l -> vfinite d a) /\
    nth_error l 0 = nth_error (bz_pts c) 0 /\ nth_error l (n + k) = nth_error (bz_pts c) n /\
    forall t, 0 <= t <= 1 -> forall i, (i < d)%nat ->
      Rabs (coord d i (bernstein_curve (map (vreal d) l) t) - coord d i (bernstein_curve (map (vreal d) (bz_pts c)) t))
      <= INR k * (14 * unit_roundoff 53 * M + (3 + 2 * M) * underflow_error 53 1024).
Proof. exact elevate_double. Qed.
Print Assumptions C124_elevate_double.

Theorem C124_elevate_float : forall (d : nat) (c : bezier (vec float32 d)) (k n : nat) (M : R),
  length (bz_pts c) = S n -> 0 <= M <= bpow radix2 127 -> 24 * INR (S n + k) * unit_roundoff 24 <= 1 ->
  (forall a, In a (bz_pts c) -> vfinite d a /\ forall i, (i < d)%nat -> Rabs (coord d i (vreal d a)) <= M) ->
  exists l : list (vec float32 d),
    repeat_res k (@bz_elevate_degree float32 (vec float32 d) float32_ops (@vec_ops float32 float32_ops d)) c
      = Ok {| bz_pts := l; bz_periodic := bz_periodic c |} /\
    length l = (S n + k)%nat /\ (forall a, In a l -> vfinite d a) /\
    nth_error l 0 = nth_error (bz_pts c) 0 /\ nth_error l (n + k) = nth_error (bz_pts c) n /\
    forall t, 0 <= t <= 1 -> forall i, (i < d)%nat ->
      Rabs (coord d i (bernstein_curve (map (vreal d) l) t) - coord d i (bernstein_curve (map (vreal d) (bz_pts c)) t))
      <= INR k * (14 * unit_roundoff 24 * M + (3 + 2 * M) * underflow_error 24 128).
Proof. exact elevate_float. Qed.
Print Assumptions C124_elevate_float.

(** Three elevations of a cubic curve. *)
Example C124_case : let c := mk_bezier [dpt 0 1; dpt 1 3; dpt 4 (-2); dpt (1 # 3) 0] in
  length (bz_pts c) = 4%nat /\ 0 <= 4 <= bpow radix2 1023 /\ 24 * INR (4 + 3) * unit_roundoff 53 <= 1 /\
  (forall a, In a (bz_pts c) -> vfinite 2 a /\ forall i, (i < 2)%nat -> Rabs (coord 2 i (vreal 2 a)) <= 4).
Proof. exact delevate_case. Qed.
