(** Rational Bezier patches with rounding (C128). *)
From Coq Require Import Reals Lra Lia ZArith QArith List Bool.
From Flocq Require Import Core IEEE754.BinarySingleNaN.
From Verif Require Import Monad Scalar Spec SpecPatch SpecPatchRational ModelCurve ModelBezier ModelRational ModelPatchBase ModelPatch
  ModelPatchRational SpecFloat ModelFloat ModelFloatRational ModelFloatPatch FloatCases FloatRuns FloatPatch FloatPatch3.
Import ListNotations.
Local Open Scope R_scope.

(** * C128: the rounding error of rational Bezier patches with positive weights *)

(** The weights lie in [w0, W], the coordinates in [-M, M]. *)
Theorem C128_rational_patch_double : forall (d : nat) (s0 : rbpatch double d) (x y : double) (w0 W M : R),
  (0 <= rp_degu s0)%Z -> (0 <= rp_degv s0)%Z ->
  bp_tu (rp_hom s0) = rp_tu s0 -> bp_tv (rp_hom s0) = rp_tv s0 ->
  (rp_tu s0 = -1 \/ rp_tu s0 = rp_degu s0)%Z -> (rp_tv s0 = -1 \/ rp_tv s0 = rp_degv s0)%Z ->
  rp_peru s0 = false -> rp_perv s0 = false ->
  let n := Z.to_nat (rp_degu s0) in
  let m := Z.to_nat (rp_degv s0) in
  length (rp_grid s0) = (S n * S m)%nat -> length (rp_weights s0) = (S n * S m)%nat ->
  (forall a, In a (rp_grid s0) -> vfinite d a /\ forall i, (i < d)%nat -> Rabs (coord d i (vreal d a)) <= M) ->
  (forall w, In w (rp_weights s0) -> is_finite w = true /\ w0 <= B2R w <= W) ->
  0 < w0 -> 0 <= M <= bpow radix2 1022 -> W <= bpow radix2 1022 -> W * M <= bpow radix2 1022 ->
  8 * (INR (n + m) + 1) * (4 * unit_roundoff 53 * W + 3 * underflow_error 53 1024) <= w0 ->
  is_finite x = true -> 0 <= B2R x <= 1 -> is_finite y = true -> 0 <= B2R y <= 1 ->
  exists (s : rbpatch double d) (q : vec double d),
    @rp_initialize double double_ops d s0 = Ok s /\ @f_rp_evaluate 53 1024 prec64 max64 d s x y = Ok q /\ vfinite d q /\
    forall i, (i < d)%nat ->
      Rabs (coord d i (vreal d q) -
        coord d i (tensor_mean (S n) (S m) (bezier_basis (S n) (B2R x)) (bezier_basis (S m) (B2R y))
          (map B2R (rp_weights s0)) (map (vreal d) (rp_grid s0))))
      <= W / w0 * M * ((20 * INR (n + m) + 4) * unit_roundoff 53)
         + (1 + (7 * INR (n + m) * (1 + M) + 5) / w0) * underflow_error 53 1024.
Proof. exact rational_patch_double. Qed.
Print Assumptions C128_rational_patch_double.

Theorem C128_rational_patch_float : forall (d : nat) (s0 : rbpatch float32 d) (x y : float32) (w0 W M : R),
  (0 <= rp_degu s0)%Z -> (0 <= rp_degv s0)%Z ->
  bp_tu (rp_hom s0) = rp_tu s0 -> bp_tv (rp_hom s0) = rp_tv s0 ->
  (rp_tu s0 = -1 \/ rp_tu s0 = rp_degu s0)%Z -> (rp_tv s0 = -1 \/ rp_tv s0 = rp_degv s0)%Z ->
  rp_peru s0 = false -> rp_perv s0 = false ->
  let n := Z.to_nat (rp_degu s0) in
  let m := Z.to_nat (rp_degv s0) in
  length (rp_grid s0) = (S n * S m)%nat -> length (rp_weights s0) = (S n * S m)%nat ->
  (forall a, In a (rp_grid s0) -> vfinite d a /\ forall i, (i < d)%nat -> Rabs (coord d i (vreal d a)) <= M) ->
  (forall w, In w (rp_weights s0) -> is_finite w = true /\ w0 <= B2R w <= W) ->
  0 < w0 -> 0 <= M <= bpow radix2 126 -> W <= bpow radix2 126 -> W * M <= bpow radix2 126 ->
  8 * (INR (n + m) + 1) * (4 * unit_roundoff 24 * W + 3 * underflow_error 24 128) <= w0 ->
  is_finite x = true -> 0 <= B2R x <= 1 -> is_finite y = true -> 0 <= B2R y <= 1 ->
  exists (s : rbpatch float32 d) (q : vec float32 d),
    @rp_initialize float32 float32_ops d s0 = Ok s /\ @f_rp_evaluate 24 128 prec32 max32 d s x y = Ok q /\ vfinite d q /\
    forall i, (i < d)%nat ->
      Rabs (coord d i (vreal d q) -
        coord d i (tensor_mean (S n) (S m) (bezier_basis (S n) (B2R x)) (bezier_basis (S m) (B2R y))
          (map B2R (rp_weights s0)) (map (vreal d) (rp_grid s0))))
      <= W / w0 * M * ((20 * INR (n + m) + 4) * unit_roundoff 24)
         + (1 + (7 * INR (n + m) * (1 + M) + 5) / w0) * underflow_error 24 128.
Proof. exact rational_patch_float. Qed.
Print Assumptions C128_rational_patch_float.

(** The patch of [C118_case] with the weights 1, 1/2, 3, 1, 3, 1/2 meets the hypotheses. *)
Example C128_case : let s0 := rpatch in let x := dofQ (3 # 10) in let y := dofQ (1 # 10) in
  let n := Z.to_nat (rp_degu s0) in
  let m := Z.to_nat (rp_degv s0) in
  n = 2%nat /\ m = 1%nat /\ (0 <= rp_degu s0)%Z /\ (0 <= rp_degv s0)%Z /\
  bp_tu (rp_hom s0) = rp_tu s0 /\ bp_tv (rp_hom s0) = rp_tv s0 /\
  (rp_tu s0 = -1 \/ rp_tu s0 = rp_degu s0)%Z /\ (rp_tv s0 = -1 \/ rp_tv s0 = rp_degv s0)%Z /\
  rp_peru s0 = false /\ rp_perv s0 = false /\
  length (rp_grid s0) = (S n * S m)%nat /\ length (rp_weights s0) = (S n * S m)%nat /\
  (forall a, In a (rp_grid s0) -> vfinite 2 a /\ forall i, (i < 2)%nat -> Rabs (coord 2 i (vreal 2 a)) <= 4) /\
  (forall w, In w (rp_weights s0) -> is_finite w = true /\ / 2 <= B2R w <= 3) /\
  0 < / 2 /\ 0 <= 4 <= bpow radix2 1022 /\ 3 <= bpow radix2 1022 /\ 3 * 4 <= bpow radix2 1022 /\
  8 * (INR (n + m) + 1) * (4 * unit_roundoff 53 * 3 + 3 * underflow_error 53 1024) <= / 2 /\
  is_finite x = true /\ 0 <= B2R x <= 1 /\ is_finite y = true /\ 0 <= B2R y <= 1.
Proof. exact rpatch_case. Qed.
