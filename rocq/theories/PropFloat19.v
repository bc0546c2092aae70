(** Second derivatives of Bezier patches with rounding (C133). *)
From Coq Require Import Reals Lra Lia ZArith QArith List Bool.
From Flocq Require Import Core IEEE754.BinarySingleNaN.
From Verif Require Import Monad Scalar Spec SpecPatch ModelCurve ModelBezier ModelPatchBase ModelPatch SpecFloat ModelFloat
  FloatCases FloatRuns FloatPatch FloatPatch5 FloatPatch7.
Import ListNotations.
Local Open Scope R_scope.

(** * C133: the rounding error of the second derivatives of Bezier patches in one direction *)

(** [f'] is the partial derivative and [f2] its derivative.  As in C130, a direction with a template degree from 0 to 3
    is left out. *)
Theorem C133_patch_2nd_derivative_double : forall (d : nat) (s : bpatch (vec double d)) (x y : double) (M : R),
  bp_initialize s = Ok s ->
  (bp_tu s = -1 \/ bp_tu s = bp_degu s)%Z -> (bp_tv s = -1 \/ bp_tv s = bp_degv s)%Z ->
  bp_peru s = false -> bp_perv s = false ->
  let n := Z.to_nat (bp_degu s) in
  let m := Z.to_nat (bp_degv s) in
  0 <= M <= bpow radix2 1023 -> 24 * INR (n + m) * unit_roundoff 53 <= 1 ->
  (forall p, In p (bp_grid s) -> vfinite d p /\ forall i, (i < d)%nat -> Rabs (coord d i (vreal d p)) <= M) ->
  is_finite x = true -> 0 <= B2R x <= 1 -> is_finite y = true -> 0 <= B2R y <= 1 ->
  ((bp_tu s = -1 \/ 4 <= bp_tu s)%Z -> 12 * (INR n * INR n) * (M + 1) <= bpow radix2 1023 ->
   exists (q : vec double d) (f' f2 : R -> vec R d), @bp_evaluate_2nd_derivative_uu double (vec double d) double_ops (@vec_ops double double_ops d) s x y = Ok q /\ vfinite d q /\
     (forall t, vderiv (fun z => tensor_sum (S n) (S m) (bezier_basis (S n) z) (bezier_basis (S m) (B2R y)) (map (vreal d) (bp_grid s))) t (f' t)) /\ (forall t, vderiv f' t (f2 t)) /\
     forall i, (i < d)%nat -> Rabs (coord d i (vreal d q) - coord d i (f2 (B2R x)))
       <= INR n * (INR n - 1) * ((24 * INR n + 16 * INR m) * unit_roundoff 53 * M + 15 * INR m * underflow_error 53 1024) + 6 * INR n * underflow_error 53 1024) /\
  ((bp_tv s = -1 \/ 4 <= bp_tv s)%Z -> 12 * (INR m * INR m) * (M + 1) <= bpow radix2 1023 ->
   exists (q : vec double d) (f' f2 : R -> vec R d), @bp_evaluate_2nd_derivative_vv double (vec double d) double_ops (@vec_ops double double_ops d) s x y = Ok q /\ vfinite d q /\
     (forall t, vderiv (fun z => tensor_sum (S n) (S m) (bezier_basis (S n) (B2R x)) (bezier_basis (S m) z) (map (vreal d) (bp_grid s))) t (f' t)) /\ (forall t, vderiv f' t (f2 t)) /\
     forall i, (i < d)%nat -> Rabs (coord d i (vreal d q) - coord d i (f2 (B2R y)))
       <= INR m * (INR m - 1) * ((24 * INR m + 16 * INR n) * unit_roundoff 53 * M + 15 * INR n * underflow_error 53 1024) + 6 * INR m * underflow_error 53 1024).
Proof. exact patch_derivative2_double. Qed.
Print Assumptions C133_patch_2nd_derivative_double.

Theorem C133_patch_2nd_derivative_float : forall (d : nat) (s : bpatch (vec float32 d)) (x y : float32) (M : R),
  bp_initialize s = Ok s ->
  (bp_tu s = -1 \/ bp_tu s = bp_degu s)%Z -> (bp_tv s = -1 \/ bp_tv s = bp_degv s)%Z ->
  bp_peru s = false -> bp_perv s = false ->
  let n := Z.to_nat (bp_degu s) in
  let m := Z.to_nat (bp_degv s) in
  0 <= M <= bpow radix2 127 -> 24 * INR (n + m) * unit_roundoff 24 <= 1 ->
  (forall p, In p (bp_grid s) -> vfinite d p /\ forall i, (i < d)%nat -> Rabs (coord d i (vreal d p)) <= M) ->
  is_finite x = true -> 0 <= B2R x <= 1 -> is_finite y = true -> 0 <= B2R y <= 1 ->
  ((bp_tu s = -1 \/ 4 <= bp_tu s)%Z -> 12 * (INR n * INR n) * (M + 1) <= bpow radix2 127 ->
   exists (q : vec float32 d) (f' f2 : R -> vec R d), @bp_evaluate_2nd_derivative_uu float32 (vec float32 d) float32_ops (@vec_ops float32 float32_ops d) s x y = Ok q /\ vfinite d q /\
     (forall t, vderiv (fun z => tensor_sum (S n) (S m) (bezier_basis (S n) z) (bezier_basis (S m) (B2R y)) (map (vreal d) (bp_grid s))) t (f' t)) /\ (forall t, vderiv f' t (f2 t)) /\
     forall i, (i < d)%nat -> Rabs (coord d i (vreal d q) - coord d i (f2 (B2R x)))
       <= INR n * (INR n - 1) * ((24 * INR n + 16 * INR m) * unit_roundoff 24 * M + 15 * INR m * underflow_error 24 128) + 6 * INR n * underflow_error 24 128) /\
  ((bp_tv s = -1 \/ 4 <= bp_tv s)%Z -> 12 * (INR m * INR m) * (M + 1) <= bpow radix2 127 ->
   exists (q : vec float32 d) (f' f2 : R -> vec R d), @bp_evaluate_2nd_derivative_vv float32 (vec float32 d) float32_ops (@vec_ops float32 float32_ops d) s x y = Ok q /\ vfinite d q /\
     (forall t, vderiv (fun z => tensor_sum (S n) (S m) (bezier_basis (S n) (B2R x)) (bezier_basis (S m) z) (map (vreal d) (bp_grid s))) t (f' t)) /\ (forall t, vderiv f' t (f2 t)) /\
     forall i, (i < d)%nat -> Rabs (coord d i (vreal d q) - coord d i (f2 (B2R y)))
       <= INR m * (INR m - 1) * ((24 * INR m + 16 * INR n) * unit_roundoff 24 * M + 15 * INR n * underflow_error 24 128) + 6 * INR m * underflow_error 24 128).
Proof. exact patch_derivative2_float. Qed.
Print Assumptions C133_patch_2nd_derivative_float.

(** The patch of [C118_case] with dynamic degrees meets all hypotheses. *)
Example C133_case : let s := dpatch0 in let x := dofQ (3 # 10) in let y := dofQ (1 # 10) in
  let n := Z.to_nat (bp_degu s) in
  let m := Z.to_nat (bp_degv s) in
  n = 2%nat /\ m = 1%nat /\ bp_initialize s = Ok s /\ bp_tu s = (-1)%Z /\ bp_tv s = (-1)%Z /\
  bp_peru s = false /\ bp_perv s = false /\
  0 <= 4 <= bpow radix2 1023 /\ 24 * INR (n + m) * unit_roundoff 53 <= 1 /\
  (forall p, In p (bp_grid s) -> vfinite 2 p /\ forall i, (i < 2)%nat -> Rabs (coord 2 i (vreal 2 p)) <= 4) /\
  is_finite x = true /\ 0 <= B2R x <= 1 /\ is_finite y = true /\ 0 <= B2R y <= 1 /\
  12 * (INR n * INR n) * (4 + 1) <= bpow radix2 1023 /\ 12 * (INR m * INR m) * (4 + 1) <= bpow radix2 1023.
Proof. exact dpatch0_case2. Qed.
