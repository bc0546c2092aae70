(** NURBS patches with rounding (C129). *)
From Coq Require Import Reals Lra Lia ZArith QArith List Bool.
From Flocq Require Import Core IEEE754.BinarySingleNaN.
From Verif Require Import Monad Scalar Spec SpecPatch SpecPatchRational ModelCurve ModelBezier ModelBSpline BSplineThms2 ModelRational ModelPatchBase
  ModelPatch ModelPatchRational SpecFloat ModelFloat ModelFloatRational ModelFloatPatch FloatThms2 FloatThms3 FloatCases FloatRuns FloatPatch2 FloatPatch4.
Import ListNotations.
Local Open Scope R_scope.

(** * C129: the rounding error of NURBS patches with positive weights *)

(** The weights lie in [w0, W], the coordinates in [-M, M]; [s] is the patch after initialize. *)
Theorem C129_nurbs_patch_double : forall (d : nat) (s0 s : nupatch double d) (x y : double) (w0 W M : R),
  let p := Z.to_nat (np_degu s0) in let q := Z.to_nat (np_degv s0) in
  let ku := map B2R (np_ku s0) in let kv := map B2R (np_kv s0) in
  let n := dir_count p ku in let m := dir_count q kv in
  @np_initialize double double_ops d s0 = Ok s -> np_peru s0 = false -> np_perv s0 = false ->
  valid_dir p ku -> valid_dir q kv -> knots_apart (/ IZR (10 ^ 15)) ku -> knots_apart (/ IZR (10 ^ 15)) kv ->
  (forall a, In a (np_ku s0) \/ In a (np_kv s0) -> is_finite a = true /\ Rabs (B2R a) <= bpow radix2 1022) ->
  (forall a, In a (np_grid s0) -> vfinite d a /\ forall i, (i < d)%nat -> Rabs (coord d i (vreal d a)) <= M) ->
  (forall w, In w (np_weights s0) -> is_finite w = true /\ w0 <= B2R w <= W) ->
  0 < w0 -> 0 <= M <= bpow radix2 1022 -> W <= bpow radix2 1022 -> W * M <= bpow radix2 1022 ->
  8 * (2 * INR (p + q) + 1) * ((8 * unit_roundoff 53 + 2 * underflow_error 53 1024) * W + 3 * underflow_error 53 1024) <= w0 ->
  is_finite x = true -> dir_param false p ku (B2R x) -> is_finite y = true -> dir_param false q kv (B2R y) ->
  exists r : vec double d, @f_np_evaluate 53 1024 prec64 max64 d s x y = Ok r /\ vfinite d r /\
    forall i, (i < d)%nat ->
      Rabs (coord d i (vreal d r) -
        coord d i (tensor_mean n m (bspline_basis n ku (B2R x)) (bspline_basis m kv (B2R y))
          (map B2R (np_weights s0)) (map (vreal d) (np_grid s0))))
      <= W / w0 * M * ((80 * INR (p + q) + 4) * unit_roundoff 53 + 20 * INR (p + q) * underflow_error 53 1024)
         + (1 + (14 * INR (p + q) * (1 + M) + 5) / w0) * underflow_error 53 1024.
Proof. exact nurbs_patch_double. Qed.
Print Assumptions C129_nurbs_patch_double.

Theorem C129_nurbs_patch_float : forall (d : nat) (s0 s : nupatch float32 d) (x y : float32) (w0 W M : R),
  let p := Z.to_nat (np_degu s0) in let q := Z.to_nat (np_degv s0) in
  let ku := map B2R (np_ku s0) in let kv := map B2R (np_kv s0) in
  let n := dir_count p ku in let m := dir_count q kv in
  @np_initialize float32 float32_ops d s0 = Ok s -> np_peru s0 = false -> np_perv s0 = false ->
  valid_dir p ku -> valid_dir q kv -> knots_apart (/ IZR (10 ^ 15)) ku -> knots_apart (/ IZR (10 ^ 15)) kv ->
  (forall a, In a (np_ku s0) \/ In a (np_kv s0) -> is_finite a = true /\ Rabs (B2R a) <= bpow radix2 126) ->
  (forall a, In a (np_grid s0) -> vfinite d a /\ forall i, (i < d)%nat -> Rabs (coord d i (vreal d a)) <= M) ->
  (forall w, In w (np_weights s0) -> is_finite w = true /\ w0 <= B2R w <= W) ->
  0 < w0 -> 0 <= M <= bpow radix2 126 -> W <= bpow radix2 126 -> W * M <= bpow radix2 126 ->
  8 * (2 * INR (p + q) + 1) * ((8 * unit_roundoff 24 + 2 * underflow_error 24 128) * W + 3 * underflow_error 24 128) <= w0 ->
  is_finite x = true -> dir_param false p ku (B2R x) -> is_finite y = true -> dir_param false q kv (B2R y) ->
  exists r : vec float32 d, @f_np_evaluate 24 128 prec32 max32 d s x y = Ok r /\ vfinite d r /\
    forall i, (i < d)%nat ->
      Rabs (coord d i (vreal d r) -
        coord d i (tensor_mean n m (bspline_basis n ku (B2R x)) (bspline_basis m kv (B2R y))
          (map B2R (np_weights s0)) (map (vreal d) (np_grid s0))))
      <= W / w0 * M * ((80 * INR (p + q) + 4) * unit_roundoff 24 + 20 * INR (p + q) * underflow_error 24 128)
         + (1 + (14 * INR (p + q) * (1 + M) + 5) / w0) * underflow_error 24 128.
Proof. exact nurbs_patch_float. Qed.
Print Assumptions C129_nurbs_patch_float.

(** The patch of [C119_case] with the weights 1, 1/2, 3, 1, 3, 1/2, 1, 3 meets the hypotheses. *)
Example C129_case : let s0 := nupatch_raw in let x := dofQ (3 # 10) in let y := dofQ (1 # 10) in
  let p := Z.to_nat (np_degu s0) in let q := Z.to_nat (np_degv s0) in
  let ku := map B2R (np_ku s0) in let kv := map B2R (np_kv s0) in
  p = 2%nat /\ q = 1%nat /\ (exists s : nupatch double 2, @np_initialize double double_ops 2 s0 = Ok s) /\ np_peru s0 = false /\ np_perv s0 = false /\
  valid_dir p ku /\ valid_dir q kv /\ knots_apart (/ IZR (10 ^ 15)) ku /\ knots_apart (/ IZR (10 ^ 15)) kv /\
  (forall a, In a (np_ku s0) \/ In a (np_kv s0) -> is_finite a = true /\ Rabs (B2R a) <= bpow radix2 1022) /\
  (forall a, In a (np_grid s0) -> vfinite 2 a /\ forall i, (i < 2)%nat -> Rabs (coord 2 i (vreal 2 a)) <= 4) /\
  (forall w, In w (np_weights s0) -> is_finite w = true /\ / 2 <= B2R w <= 3) /\
  0 < / 2 /\ 0 <= 4 <= bpow radix2 1022 /\ 3 <= bpow radix2 1022 /\ 3 * 4 <= bpow radix2 1022 /\
  8 * (2 * INR (p + q) + 1) * ((8 * unit_roundoff 53 + 2 * underflow_error 53 1024) * 3 + 3 * underflow_error 53 1024) <= / 2 /\
  is_finite x = true /\ dir_param false p ku (B2R x) /\ is_finite y = true /\ dir_param false q kv (B2R y).
Proof. exact nupatch_case. Qed.
