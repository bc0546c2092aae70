(** Splitting and patches with rounding (C117-C119). *)
From Coq Require Import Reals Lra Lia ZArith QArith List Bool.
From Flocq Require Import Core IEEE754.BinarySingleNaN.
From Verif Require Import Monad Scalar Spec ModelCurve ModelBezier BezierThms SpecFloat ModelFloat FloatCases FloatRuns SpecSubdiv FloatSplit.
From Verif Require Import SpecPatch ModelBSpline ModelPatchBase ModelPatch FloatPatch FloatPatch2.
Import ListNotations.
Local Open Scope R_scope.

(** * C117: repeated splitting of Bezier curves, with rounding: the piece that is left after any
    sequence of cuts follows the given curve on the cut out interval; the error adds up over the cuts. *)
Theorem C117_subdivide_double : forall (d : nat) (cuts : list (double * bool)) (pts : list (vec double d)) (n : nat) (M : R),
  length pts = S n -> 0 <= M <= bpow radix2 1023 -> 24 * INR (n * length cuts) * unit_roundoff 53 <= 1 ->
  (forall p, In p pts -> vfinite d p /\ forall i, (i < d)%nat -> Rabs (coord d i (vreal d p)) <= M) ->
  (forall t k, In (t, k) cuts -> is_finite t = true /\ 0 < B2R t < 1) ->
  exists q : list (vec double d),
    @subdivide double (vec double d) double_ops (@vec_ops double double_ops d) cuts (mk_bezier pts) = Ok (mk_bezier q) /\
    length q = S n /\ (forall p, In p q -> vfinite d p) /\
    let '(a, b) := cut_interval (map (fun c => (B2R (fst c), snd c)) cuts) 0 1 in
    forall s i, 0 <= s <= 1 -> (i < d)%nat ->
      Rabs (coord d i (bernstein_curve (map (vreal d) q) s) - coord d i (bernstein_curve (map (vreal d) pts) (a + (b - a) * s)))
        <= INR (n * length cuts) * (4 * unit_roundoff 53 * M + 3 * underflow_error 53 1024).
Proof. exact subdivide_double. Qed.
Print Assumptions C117_subdivide_double.

Theorem C117_subdivide_float : forall (d : nat) (cuts : list (float32 * bool)) (pts : list (vec float32 d)) (n : nat) (M : R),
  length pts = S n -> 0 <= M <= bpow radix2 127 -> 24 * INR (n * length cuts) * unit_roundoff 24 <= 1 ->
  (forall p, In p pts -> vfinite d p /\ forall i, (i < d)%nat -> Rabs (coord d i (vreal d p)) <= M) ->
  (forall t k, In (t, k) cuts -> is_finite t = true /\ 0 < B2R t < 1) ->
  exists q : list (vec float32 d),
    @subdivide float32 (vec float32 d) float32_ops (@vec_ops float32 float32_ops d) cuts (mk_bezier pts) = Ok (mk_bezier q) /\
    length q = S n /\ (forall p, In p q -> vfinite d p) /\
    let '(a, b) := cut_interval (map (fun c => (B2R (fst c), snd c)) cuts) 0 1 in
    forall s i, 0 <= s <= 1 -> (i < d)%nat ->
      Rabs (coord d i (bernstein_curve (map (vreal d) q) s) - coord d i (bernstein_curve (map (vreal d) pts) (a + (b - a) * s)))
        <= INR (n * length cuts) * (4 * unit_roundoff 24 * M + 3 * underflow_error 24 128).
Proof. exact subdivide_float. Qed.
Print Assumptions C117_subdivide_float.

(** Three cuts of a cubic, at 0.3, 0.5 and 0.1, meet the hypotheses. *)
Example C117_case : let pts := [dpt 0 1; dpt 1 3; dpt 4 (-2); dpt (1 # 3) 0] in
  length pts = 4%nat /\ 0 <= 4 <= bpow radix2 1023 /\ 24 * INR (3 * length three_cuts) * unit_roundoff 53 <= 1 /\
  (forall p, In p pts -> vfinite 2 p /\ forall i, (i < 2)%nat -> Rabs (coord 2 i (vreal 2 p)) <= 4) /\
  (forall t k, In (t, k) three_cuts -> is_finite t = true /\ 0 < B2R t < 1).
Proof. exact cuts_case. Qed.

(** * C118: evaluation of Bezier patches, with rounding: the value lies near the sum over the grid with
    Bernstein polynomials in both directions, in whichever order the directions are taken. *)
Theorem C118_bezier_patch_double : forall (d : nat) (s : bpatch (vec double d)) (x y : double) (M : R),
  bp_initialize s = Ok s ->
  (bp_tu s = -1 \/ bp_tu s = bp_degu s)%Z -> (bp_tv s = -1 \/ bp_tv s = bp_degv s)%Z ->
  bp_peru s = false -> bp_perv s = false ->
  let n := Z.to_nat (bp_degu s) in
  let m := Z.to_nat (bp_degv s) in
  0 <= M <= bpow radix2 1023 -> 24 * INR (n + m) * unit_roundoff 53 <= 1 ->
  (forall p, In p (bp_grid s) -> vfinite d p /\ forall i, (i < d)%nat -> Rabs (coord d i (vreal d p)) <= M) ->
  is_finite x = true -> 0 <= B2R x <= 1 -> is_finite y = true -> 0 <= B2R y <= 1 ->
  exists q : vec double d,
    @bp_evaluate double (vec double d) double_ops (@vec_ops double double_ops d) s x y = Ok q /\ vfinite d q /\
    forall i, (i < d)%nat ->
      Rabs (coord d i (vreal d q) -
        coord d i (tensor_sum (S n) (S m) (bezier_basis (S n) (B2R x)) (bezier_basis (S m) (B2R y)) (map (vreal d) (bp_grid s))))
      <= INR (n + m) * (4 * unit_roundoff 53 * M + 3 * underflow_error 53 1024).
Proof. exact bezier_patch_double. Qed.
Print Assumptions C118_bezier_patch_double.

Theorem C118_bezier_patch_float : forall (d : nat) (s : bpatch (vec float32 d)) (x y : float32) (M : R),
  bp_initialize s = Ok s ->
  (bp_tu s = -1 \/ bp_tu s = bp_degu s)%Z -> (bp_tv s = -1 \/ bp_tv s = bp_degv s)%Z ->
  bp_peru s = false -> bp_perv s = false ->
  let n := Z.to_nat (bp_degu s) in
  let m := Z.to_nat (bp_degv s) in
  0 <= M <= bpow radix2 127 -> 24 * INR (n + m) * unit_roundoff 24 <= 1 ->
  (forall p, In p (bp_grid s) -> vfinite d p /\ forall i, (i < d)%nat -> Rabs (coord d i (vreal d p)) <= M) ->
  is_finite x = true -> 0 <= B2R x <= 1 -> is_finite y = true -> 0 <= B2R y <= 1 ->
  exists q : vec float32 d,
    @bp_evaluate float32 (vec float32 d) float32_ops (@vec_ops float32 float32_ops d) s x y = Ok q /\ vfinite d q /\
    forall i, (i < d)%nat ->
      Rabs (coord d i (vreal d q) -
        coord d i (tensor_sum (S n) (S m) (bezier_basis (S n) (B2R x)) (bezier_basis (S m) (B2R y)) (map (vreal d) (bp_grid s))))
      <= INR (n + m) * (4 * unit_roundoff 24 * M + 3 * underflow_error 24 128).
Proof. exact bezier_patch_float. Qed.
Print Assumptions C118_bezier_patch_float.

(** A patch of degrees 2 and 1 at (0.3, 0.1) meets the hypotheses. *)
Example C118_case : let s := dpatch in let x := dofQ (3 # 10) in let y := dofQ (1 # 10) in
  let n := Z.to_nat (bp_degu s) in
  let m := Z.to_nat (bp_degv s) in
  n = 2%nat /\ m = 1%nat /\ bp_initialize s = Ok s /\
  (bp_tu s = -1 \/ bp_tu s = bp_degu s)%Z /\ (bp_tv s = -1 \/ bp_tv s = bp_degv s)%Z /\
  bp_peru s = false /\ bp_perv s = false /\
  0 <= 4 <= bpow radix2 1023 /\ 24 * INR (n + m) * unit_roundoff 53 <= 1 /\
  (forall p, In p (bp_grid s) -> vfinite 2 p /\ forall i, (i < 2)%nat -> Rabs (coord 2 i (vreal 2 p)) <= 4) /\
  is_finite x = true /\ 0 <= B2R x <= 1 /\ is_finite y = true /\ 0 <= B2R y <= 1.
Proof. exact dpatch_case. Qed.

(** * C119: evaluation of B-spline patches, with rounding. *)
Theorem C119_bspline_patch_double : forall (d : nat) (s : spatch double (vec double d)) (x y : double) (M : R),
  let p := Z.to_nat (sp_degu s) in let q := Z.to_nat (sp_degv s) in
  let ku := map B2R (sp_ku s) in let kv := map B2R (sp_kv s) in
  let n := dir_count p ku in let m := dir_count q kv in
  @sp_initialize double (vec double d) s = Ok s -> sp_peru s = false -> sp_perv s = false ->
  valid_dir p ku -> valid_dir q kv -> knots_apart (/ IZR (10 ^ 15)) ku -> knots_apart (/ IZR (10 ^ 15)) kv ->
  (forall a, In a (sp_ku s) \/ In a (sp_kv s) -> is_finite a = true /\ Rabs (B2R a) <= bpow radix2 1022) ->
  0 <= M <= bpow radix2 1023 -> 24 * INR (p + q) * unit_roundoff 53 <= 1 ->
  (forall a, In a (sp_grid s) -> vfinite d a /\ forall i, (i < d)%nat -> Rabs (coord d i (vreal d a)) <= M) ->
  is_finite x = true -> dir_param false p ku (B2R x) -> is_finite y = true -> dir_param false q kv (B2R y) ->
  exists r : vec double d,
    @sp_evaluate double (vec double d) double_ops (@vec_ops double double_ops d) s x y = Ok r /\ vfinite d r /\
    forall i, (i < d)%nat ->
      Rabs (coord d i (vreal d r) -
        coord d i (tensor_sum n m (bspline_basis n ku (B2R x)) (bspline_basis m kv (B2R y)) (map (vreal d) (sp_grid s))))
      <= INR (p + q) * (16 * unit_roundoff 53 * M + (5 + 3 * M) * underflow_error 53 1024).
Proof. exact bspline_patch_double. Qed.
Print Assumptions C119_bspline_patch_double.

Theorem C119_bspline_patch_float : forall (d : nat) (s : spatch float32 (vec float32 d)) (x y : float32) (M : R),
  let p := Z.to_nat (sp_degu s) in let q := Z.to_nat (sp_degv s) in
  let ku := map B2R (sp_ku s) in let kv := map B2R (sp_kv s) in
  let n := dir_count p ku in let m := dir_count q kv in
  @sp_initialize float32 (vec float32 d) s = Ok s -> sp_peru s = false -> sp_perv s = false ->
  valid_dir p ku -> valid_dir q kv -> knots_apart (/ IZR (10 ^ 15)) ku -> knots_apart (/ IZR (10 ^ 15)) kv ->
  (forall a, In a (sp_ku s) \/ In a (sp_kv s) -> is_finite a = true /\ Rabs (B2R a) <= bpow radix2 126) ->
  0 <= M <= bpow radix2 127 -> 24 * INR (p + q) * unit_roundoff 24 <= 1 ->
  (forall a, In a (sp_grid s) -> vfinite d a /\ forall i, (i < d)%nat -> Rabs (coord d i (vreal d a)) <= M) ->
  is_finite x = true -> dir_param false p ku (B2R x) -> is_finite y = true -> dir_param false q kv (B2R y) ->
  exists r : vec float32 d,
    @sp_evaluate float32 (vec float32 d) float32_ops (@vec_ops float32 float32_ops d) s x y = Ok r /\ vfinite d r /\
    forall i, (i < d)%nat ->
      Rabs (coord d i (vreal d r) -
        coord d i (tensor_sum n m (bspline_basis n ku (B2R x)) (bspline_basis m kv (B2R y)) (map (vreal d) (sp_grid s))))
      <= INR (p + q) * (16 * unit_roundoff 24 * M + (5 + 3 * M) * underflow_error 24 128).
Proof. exact bspline_patch_float. Qed.
Print Assumptions C119_bspline_patch_float.

(** A patch of degrees 2 and 1 with 4 x 2 control points at (0.3, 0.1) meets the hypotheses. *)
Example C119_case : let s := dspatch in let x := dofQ (3 # 10) in let y := dofQ (1 # 10) in
  let p := Z.to_nat (sp_degu s) in let q := Z.to_nat (sp_degv s) in
  let ku := map B2R (sp_ku s) in let kv := map B2R (sp_kv s) in
  p = 2%nat /\ q = 1%nat /\ sp_initialize s = Ok s /\ sp_peru s = false /\ sp_perv s = false /\
  valid_dir p ku /\ valid_dir q kv /\ knots_apart (/ IZR (10 ^ 15)) ku /\ knots_apart (/ IZR (10 ^ 15)) kv /\
  (forall a, In a (sp_ku s) \/ In a (sp_kv s) -> is_finite a = true /\ Rabs (B2R a) <= bpow radix2 1022) /\
  0 <= 4 <= bpow radix2 1023 /\ 24 * INR (p + q) * unit_roundoff 53 <= 1 /\
  (forall a, In a (sp_grid s) -> vfinite 2 a /\ forall i, (i < 2)%nat -> Rabs (coord 2 i (vreal 2 a)) <= 4) /\
  is_finite x = true /\ dir_param false p ku (B2R x) /\ is_finite y = true /\ dir_param false q kv (B2R y).
Proof. exact dspatch_case. Qed.
