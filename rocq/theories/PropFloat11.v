(** Subcurves with rounding (C125). *)
From Coq Require Import Reals Lra Lia ZArith QArith List Bool.
From Flocq Require Import Core IEEE754.BinarySingleNaN.
From Verif Require Import Monad Scalar Spec ModelCurve ModelBezier SpecFloat ModelFloat FloatCases FloatRuns SpecSub FloatSub.
Import ListNotations.
Local Open Scope R_scope.

(** * C125: subcurves of subcurves, to any depth ([subcurves], [nested]: SpecSub.v). *)
Theorem C125_subcurves_double : forall (d : nat) (c : bezier (vec double d)) (l : list (double * double)) (n : nat) (M : R),
  let intervals := map (fun x => (B2R (fst x), B2R (snd x))) l in
  length (bz_pts c) = S n -> l <> [] -> 0 <= M <= bpow radix2 1023 -> 24 * INR (length l * n) * unit_roundoff 53 <= 1 ->
  (forall a, In a (bz_pts c) -> vfinite d a /\ forall i, (i < d)%nat -> Rabs (coord d i (vreal d a)) <= M) ->
  (forall t0 t1 : double, In (t0, t1) l -> is_finite t0 = true /\ is_finite t1 = true /\ 0 <= B2R t0 <= B2R t1 /\ B2R t1 <= 1) ->
  exists q : list (vec double d),
    @subcurves double (vec double d) double_ops (@vec_ops double double_ops d) l c = Ok (mk_bezier q) /\
    length q = S n /\ (forall a, In a q -> vfinite d a) /\
    forall s, 0 <= s <= 1 -> forall i, (i < d)%nat ->
      Rabs (coord d i (bernstein_curve (map (vreal d) q) s)
            - coord d i (bernstein_curve (map (vreal d) (bz_pts c)) (nested intervals s)))
      <= INR (length l * n) * (4 * unit_roundoff 53 * M + 3 * underflow_error 53 1024).
Proof. exact subcurves_double. Qed.
Print Assumptions C125_subcurves_double.

Theorem C125_subcurves_float : forall (d : nat) (c : bezier (vec float32 d)) (l : list (float32 * float32)) (n : nat) (M : R),
  let intervals := map (fun x => (B2R (fst x), B2R (snd x))) l in
  length (bz_pts c) = S n -> l <> [] -> 0 <= M <= bpow radix2 127 -> 24 * INR (length l * n) * unit_roundoff 24 <= 1 ->
  (forall a, In a (bz_pts c) -> vfinite d a /\ forall i, (i < d)%nat -> Rabs (coord d i (vreal d a)) <= M) ->
  (forall t0 t1 : float32, In (t0, t1) l -> is_finite t0 = true /\ is_finite t1 = true /\ 0 <= B2R t0 <= B2R t1 /\ B2R t1 <= 1) ->
  exists q : list (vec float32 d),
    @subcurves float32 (vec float32 d) float32_ops (@vec_ops float32 float32_ops d) l c = Ok (mk_bezier q) /\
    length q = S n /\ (forall a, In a q -> vfinite d a) /\
    forall s, 0 <= s <= 1 -> forall i, (i < d)%nat ->
      Rabs (coord d i (bernstein_curve (map (vreal d) q) s)
            - coord d i (bernstein_curve (map (vreal d) (bz_pts c)) (nested intervals s)))
      <= INR (length l * n) * (4 * unit_roundoff 24 * M + 3 * underflow_error 24 128).
Proof. exact subcurves_float. Qed.
Print Assumptions C125_subcurves_float.

(** A subcurve of a subcurve of a cubic curve. *)
Example C125_case : let c := mk_bezier [dpt 0 1; dpt 1 3; dpt 4 (-2); dpt (1 # 3) 0] in
  let l := [(dofQ (1 # 10), dofQ (3 # 4)); (dofQ 0, dofQ (1 # 10))] in
  length (bz_pts c) = 4%nat /\ l <> [] /\ 0 <= 4 <= bpow radix2 1023 /\ 24 * INR (length l * 3) * unit_roundoff 53 <= 1 /\
  (forall a, In a (bz_pts c) -> vfinite 2 a /\ forall i, (i < 2)%nat -> Rabs (coord 2 i (vreal 2 a)) <= 4) /\
  (forall t0 t1 : double, In (t0, t1) l -> is_finite t0 = true /\ is_finite t1 = true /\ 0 <= B2R t0 <= B2R t1 /\ B2R t1 <= 1).
Proof. exact dsub_case. Qed.
