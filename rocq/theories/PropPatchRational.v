(** Property theorems: rational Bezier and NURBS patches (C36, C37, C70, C71), iso curves (C72) and convex hulls
    (C73) of all four patch classes.  Statements only; the proofs are in PatchRationalThms.v, PatchRationalThms2.v,
    PatchRationalSplit.v, PatchRationalRefute.v, PatchIso.v and PatchHull.v.

    [rp_ready], [rp_static], [np_valid], [np_ready] (SpecPatchRational.v) say which patches are meant. *)
From Coq Require Import Reals Lra Lia ZArith QArith List.
From Verif Require Import Monad Scalar Spec SpecPatch SpecPatch2 SpecPatchRational ModelCurve ModelBezier ModelBSpline ModelRational
  ModelPatchBase ModelPatch ModelPatchRational ExampleFacts BSplinePatchRefute
  PatchRationalThms PatchRationalThms2 PatchRationalSplit PatchRationalRefute PatchIso PatchHull PropPatch PropPatch2.
Import ListNotations.
Local Open Scope R_scope.

(** A rational Bezier patch of degrees 2 x 1, dynamic template arguments [tu], [tv] or static ones. *)
Definition ex_rp_raw (tu tv : Z) (pu pv : bool) : rbpatch R 2 :=
  rp_set_periodic (rp_set_weights (rp_set_grid (rp_set_degrees (rp_new tu tv) 2 1)
    ([(0, (0, tt)); (0, (1, tt)); (1, (0, tt)); (1, (2, tt)); (2, (0, tt)); (3, (1, tt))] : list (vec R 2))) [1; 2; 1; 3; 1; 1]) pu pv.
Definition ex_rp (tu tv : Z) (pu pv : bool) : rbpatch R 2 :=
  match rp_initialize (ex_rp_raw tu tv pu pv) with Ok s => s | _ => ex_rp_raw tu tv pu pv end.
Definition exq_rp_raw (tu tv : Z) (pu pv : bool) : rbpatch Q 2 :=
  rp_set_periodic (rp_set_weights (rp_set_grid (rp_set_degrees (rp_new tu tv) 2 1)
    ([(0, (0, tt)); (0, (1, tt)); (1, (0, tt)); (1, (2, tt)); (2, (0, tt)); (3, (1, tt))]%Q : list (vec Q 2))) [1; 2; 1; 3; 1; 1]%Q) pu pv.
Definition exq_rp (tu tv : Z) (pu pv : bool) : rbpatch Q 2 :=
  match rp_initialize (exq_rp_raw tu tv pu pv) with Ok s => s | _ => exq_rp_raw tu tv pu pv end.

Example ex_rp_ready : rp_ready (ex_rp (-1) (-1) false true) /\ rp_ready (ex_rp 2 1 true false) /\
  rp_degu (ex_rp 2 1 true false) = 2%Z /\ rp_degv (ex_rp 2 1 true false) = 1%Z /\
  Forall (fun w => 0 < w) (rp_weights (ex_rp 2 1 true false)).
Proof.
  split; [split; try reflexivity; [left; reflexivity|left; reflexivity|discriminate|discriminate]|].
  split; [split; try reflexivity; [right; reflexivity|right; reflexivity|discriminate|discriminate]|].
  split; [reflexivity|]. split; [reflexivity|]. repeat constructor; lra.
Qed.
Example ex_rp_static : rp_static (ex_rp 2 1 true false) /\ rp_flat (ex_rp 2 1 true false) (ex_rp 2 1 false false).
Proof. split; [|reflexivity]. split; try reflexivity. repeat constructor; lra. Qed.

(** A NURBS patch of degrees 2 x 1 with 4 x 3 control points, periodic in v. *)
Definition ex_np_raw (pu pv : bool) : nupatch R 2 :=
  np_make (-1) (-1) 2 1 ex_sp_grid [1; 2; 1; 3; 1; 1; 2; 1; 1; 1; 4; 1] (map IZR [0; 0; 0; 1; 2; 2; 2]%Z) (map IZR [0; 1; 3; 4; 6]%Z) pu pv.
Definition ex_np (pu pv : bool) : nupatch R 2 :=
  match np_initialize (ex_np_raw pu pv) with Ok s => s | _ => ex_np_raw pu pv end.
Definition exq_np_raw (pu pv : bool) : nupatch Q 2 :=
  np_make (-1) (-1) 2 1 (sp_grid (exq_sp_raw pu pv)) [1; 2; 1; 3; 1; 1; 2; 1; 1; 1; 4; 1]%Q
    [0; 0; 0; 1; 2; 2; 2]%Q [0; 1; 3; 4; 6]%Q pu pv.
Definition exq_np (pu pv : bool) : nupatch Q 2 :=
  match np_initialize (exq_np_raw pu pv) with Ok s => s | _ => exq_np_raw pu pv end.

Example ex_np_valid : np_valid (ex_np false true) /\
  dir_param (np_peru (ex_np false true)) 2 (np_ku (ex_np false true)) (3/2) /\
  dir_param (np_perv (ex_np false true)) 1 (np_kv (ex_np false true)) 17.
Proof.
  change (np_ku (ex_np false true)) with (map IZR [0; 0; 0; 1; 2; 2; 2]%Z).
  change (np_kv (ex_np false true)) with (map IZR [0; 1; 3; 4; 6]%Z).
  split.
  - split; [reflexivity| | | |]; change (np_degu (ex_np false true)) with 2%Z; change (np_degv (ex_np false true)) with 1%Z;
      change (np_ku (ex_np false true)) with (map IZR [0; 0; 0; 1; 2; 2; 2]%Z); change (np_kv (ex_np false true)) with (map IZR [0; 1; 3; 4; 6]%Z);
      change (Z.to_nat 2) with 2%nat; change (Z.to_nat 1) with 1%nat.
    + apply valid_dir_of_Z; reflexivity.
    + apply valid_dir_of_Z; reflexivity.
    + apply apart_of_Z.
    + apply apart_of_Z.
  - split; unfold dir_param, dir_lo, dir_hi; cbn; split.
    + right; lra.
    + left; lra.
    + left; reflexivity.
    + left; lra.
Qed.
Example ex_np_ready : np_ready (ex_np false true).
Proof.
  split; try reflexivity; change (np_degu (ex_np false true)) with 2%Z; change (np_degv (ex_np false true)) with 1%Z;
    change (np_ku (ex_np false true)) with (map IZR [0; 0; 0; 1; 2; 2; 2]%Z); change (np_kv (ex_np false true)) with (map IZR [0; 1; 3; 4; 6]%Z);
    change (Z.to_nat 2) with 2%nat; change (Z.to_nat 1) with 1%nat.
  - split; [apply (valid_dir_of_Z 2); reflexivity|apply apart_of_Z|cbn; lra].
  - split; [apply (valid_dir_of_Z 1); reflexivity|apply apart_of_Z|cbn; lra].
  - left. reflexivity.
  - repeat constructor; lra.
Qed.

(** C37: evaluation is the weighted mean of the control points. *)
Theorem C37_rational_bezier_evaluate : forall d (s : rbpatch R d) u v, rp_ready s ->
  let nu := S (Z.to_nat (rp_degu s)) in let nv := S (Z.to_nat (rp_degv s)) in
  exists u' v', wraps (rp_peru s) 0 1 u u' /\ wraps (rp_perv s) 0 1 v v' /\
    let w := tensor_weight nu nv (bezier_basis nu u') (bezier_basis nv v') (rp_weights s) in
    (w <> 0 -> rp_evaluate s u v =
       Ok (tensor_mean nu nv (bezier_basis nu u') (bezier_basis nv v') (rp_weights s) (rp_grid s))) /\
    (w = 0 -> rp_evaluate s u v = NonFinite).
Proof. exact @rpatch_evaluate. Qed.
Print Assumptions C37_rational_bezier_evaluate.

Theorem C37_nurbs_evaluate : forall d (s : nupatch R d) u v,
  let p := Z.to_nat (np_degu s) in let q := Z.to_nat (np_degv s) in
  let n := dir_count p (np_ku s) in let m := dir_count q (np_kv s) in
  np_valid s -> dir_param (np_peru s) p (np_ku s) u -> dir_param (np_perv s) q (np_kv s) v ->
  exists u' v', wraps (np_peru s) (dir_lo p (np_ku s)) (dir_hi p (np_ku s)) u u' /\
    wraps (np_perv s) (dir_lo q (np_kv s)) (dir_hi q (np_kv s)) v v' /\
    let w := tensor_weight n m (bspline_basis n (np_ku s) u') (bspline_basis m (np_kv s) v') (np_weights s) in
    (w <> 0 -> np_evaluate s u v =
       Ok (tensor_mean n m (bspline_basis n (np_ku s) u') (bspline_basis m (np_kv s) v') (np_weights s) (np_grid s))) /\
    (w = 0 -> np_evaluate s u v = NonFinite).
Proof. exact @nupatch_evaluate. Qed.
Print Assumptions C37_nurbs_evaluate.

(** Derivatives.  Missing: the second derivatives where the denominator is not above 2^-52; there the claim is false
    (below). *)
Theorem C37_rational_bezier_derivatives_partial : forall d (s : rbpatch R d), rp_ready s ->
  let nu := S (Z.to_nat (rp_degu s)) in let nv := S (Z.to_nat (rp_degv s)) in
  exists f fu fv fuu fvv fuv : R -> R -> vec R d,
    forall u v, exists u' v', wraps (rp_peru s) 0 1 u u' /\ wraps (rp_perv s) 0 1 v v' /\
      let w := tensor_weight nu nv (bezier_basis nu u') (bezier_basis nv v') (rp_weights s) in
      (w <> 0 -> partials f fu fv fuu fvv fuv u' v' /\
         rp_evaluate s u v = Ok (f u' v') /\
         rp_evaluate_derivative_u s u v = Ok (fu u' v') /\ rp_evaluate_derivative_v s u v = Ok (fv u' v')) /\
      (/ IZR (2 ^ 52) < w ->
         rp_evaluate_2nd_derivative_uu s u v = Ok (fuu u' v') /\ rp_evaluate_2nd_derivative_vv s u v = Ok (fvv u' v') /\
         rp_evaluate_2nd_derivative_uv s u v = Ok (fuv u' v')).
Proof. exact @rpatch_derivatives. Qed.
Print Assumptions C37_rational_bezier_derivatives_partial.

Theorem C37_nurbs_derivatives_partial : forall d (s : nupatch R d) k l,
  let p := Z.to_nat (np_degu s) in let q := Z.to_nat (np_degv s) in
  let n := dir_count p (np_ku s) in let m := dir_count q (np_kv s) in
  np_valid s -> (p <= k < n)%nat -> nth k (np_ku s) 0 < nth (k + 1) (np_ku s) 0 ->
  (q <= l < m)%nat -> nth l (np_kv s) 0 < nth (l + 1) (np_kv s) 0 ->
  exists f fu fv fuu fvv fuv : R -> R -> vec R d,
    forall u v u' v',
      dir_param (np_peru s) p (np_ku s) u -> wraps (np_peru s) (dir_lo p (np_ku s)) (dir_hi p (np_ku s)) u u' ->
      dir_param (np_perv s) q (np_kv s) v -> wraps (np_perv s) (dir_lo q (np_kv s)) (dir_hi q (np_kv s)) v v' ->
      span_set (np_ku s) (dir_hi p (np_ku s)) k u' -> span_set (np_kv s) (dir_hi q (np_kv s)) l v' ->
      let w := tensor_weight n m (bspline_basis n (np_ku s) u') (bspline_basis m (np_kv s) v') (np_weights s) in
      (w <> 0 -> partials f fu fv fuu fvv fuv u' v' /\
         np_evaluate s u v = Ok (f u' v') /\
         np_evaluate_derivative_u s u v = Ok (fu u' v') /\ np_evaluate_derivative_v s u v = Ok (fv u' v')) /\
      (/ IZR (2 ^ 52) < w ->
         np_evaluate_2nd_derivative_uu s u v = Ok (fuu u' v') /\ np_evaluate_2nd_derivative_vv s u v = Ok (fvv u' v') /\
         (no_full_knot p (np_ku s) -> no_full_knot q (np_kv s) -> np_evaluate_2nd_derivative_uv s u v = Ok (fuv u' v'))).
Proof. exact @nupatch_derivatives. Qed.
Print Assumptions C37_nurbs_derivatives_partial.

(** The surface u*u with the (equal, positive) weights 2^-53: the second derivative is reported as 0. *)
Theorem C37_second_derivative_refuted : exists s : rbpatch R 1, rp_ready s /\ Forall (fun w => 0 < w) (rp_weights s) /\
  forall u v, rp_evaluate s u v = Ok (u * u, tt) /\ rp_evaluate_2nd_derivative_uu s u v = Ok (0, tt).
Proof. exact rpatch_2nd_refuted. Qed.
Print Assumptions C37_second_derivative_refuted.

Theorem C37_second_derivative_actual : forall d (s : rbpatch R d) u v u' v', rp_ready s ->
  let nu := S (Z.to_nat (rp_degu s)) in let nv := S (Z.to_nat (rp_degv s)) in
  wraps (rp_peru s) 0 1 u u' -> wraps (rp_perv s) 0 1 v v' ->
  let w := tensor_weight nu nv (bezier_basis nu u') (bezier_basis nv v') (rp_weights s) in
  w <> 0 -> w <= / IZR (2 ^ 52) ->
  rp_evaluate_2nd_derivative_uu s u v = Ok p0 /\ rp_evaluate_2nd_derivative_vv s u v = Ok p0 /\
  rp_evaluate_2nd_derivative_uv s u v = Ok p0.
Proof. exact @rpatch_small. Qed.
Print Assumptions C37_second_derivative_actual.

Example C37_run :
  rp_evaluate (exq_rp 2 1 false false) (1#2) (1#2) = Ok (1, (15#13, tt))%Q /\
  rp_evaluate (exq_rp (-1) (-1) false true) (1#2) (7#2) = rp_evaluate (exq_rp 2 1 false false) (1#2) (1#2) /\
  np_evaluate (exq_np false true) (3#2) 5%Q = np_evaluate (exq_np false false) (3#2) 2%Q /\
  np_evaluate (exq_np false false) 0%Q 3%Q = Ok (1, (0, tt))%Q.
Proof. vm_compute. auto. Qed.
Example C37_derivatives_run :
  rp_evaluate_derivative_u (exq_rp 2 1 false false) 0%Q 0%Q = Ok (2, (0, tt))%Q /\
  rp_evaluate_2nd_derivative_uu (exq_rp 2 1 false false) (1#2) 1%Q = Ok (128#81, (-800#243, tt))%Q /\
  rp_evaluate_2nd_derivative_uv (exq_rp (-1) (-1) false false) 0%Q 0%Q = Ok (2, (8, tt))%Q.
Proof. vm_compute. auto. Qed.

(** C36 for NURBS patches: the setters write the control point into m_homogeneous, whose iso curves stay as they
    were. *)
Theorem C36_nurbs_setter_refuted : exists (s s' s'' : nupatch R 1) a,
  np_valid s /\ np_set_control_point s 0 0 a = Ok s' /\ np_initialize s' = Ok s'' /\
  np_evaluate s' (1/2) (1/2) = Ok (0, tt) /\ np_evaluate s'' (1/2) (1/2) = Ok (1/4, tt).
Proof. exact nupatch_setter_refuted. Qed.
Print Assumptions C36_nurbs_setter_refuted.

Theorem C36_nurbs_point_actual : forall d (s s' : nupatch R d) i j a u v,
  np_set_control_point s i j a = Ok s' -> np_evaluate s' u v = np_evaluate s u v.
Proof. exact @nupatch_point_stale. Qed.
Print Assumptions C36_nurbs_point_actual.

Theorem C36_nurbs_weight_actual : forall d (s s' : nupatch R d) i j w u v,
  np_set_weight s i j w = Ok s' -> np_evaluate s' u v = np_evaluate s u v.
Proof. exact @nupatch_weight_stale. Qed.
Print Assumptions C36_nurbs_weight_actual.

(** A knot is stale in the direction whose curves are cached; in the other one the new knot is used at once. *)
Theorem C36_nurbs_knot_actual : forall d (s s' : nupatch R d) i a u v, np_initialize s = Ok s ->
  ((np_degv s <= np_degu s)%Z -> np_set_knot_v s i a = Ok s' -> np_evaluate s' u v = np_evaluate s u v) /\
  ((np_degu s < np_degv s)%Z -> np_set_knot_u s i a = Ok s' -> np_evaluate s' u v = np_evaluate s u v).
Proof. exact @nupatch_knot_stale. Qed.
Print Assumptions C36_nurbs_knot_actual.

(** The claim when initialize() follows; missing: without that call, where it is false. *)
Theorem C36_nurbs_setters_partial : forall d (s : nupatch R d) i j,
  let n := dir_count (Z.to_nat (np_degu s)) (np_ku s) in let m := dir_count (Z.to_nat (np_degv s)) (np_kv s) in
  np_valid s -> (i < n)%nat -> (j < m)%nat ->
  (forall a, exists s' s'' : nupatch R d,
     np_set_control_point s (Z.of_nat i) (Z.of_nat j) a = Ok s' /\ np_initialize s' = Ok s'' /\ np_valid s'' /\
     np_grid s'' = replace_nth (np_grid s) (i * m + j) a /\ np_weights s'' = np_weights s /\
     np_degu s'' = np_degu s /\ np_degv s'' = np_degv s /\ np_ku s'' = np_ku s /\ np_kv s'' = np_kv s /\
     np_peru s'' = np_peru s /\ np_perv s'' = np_perv s) /\
  (forall w, exists s' s'' : nupatch R d,
     np_set_weight s (Z.of_nat i) (Z.of_nat j) w = Ok s' /\ np_initialize s' = Ok s'' /\ np_valid s'' /\
     np_grid s'' = np_grid s /\ np_weights s'' = replace_nth (np_weights s) (i * m + j) w /\
     np_degu s'' = np_degu s /\ np_degv s'' = np_degv s /\ np_ku s'' = np_ku s /\ np_kv s'' = np_kv s /\
     np_peru s'' = np_peru s /\ np_perv s'' = np_perv s).
Proof. exact @nupatch_setters_init. Qed.
Print Assumptions C36_nurbs_setters_partial.

Example C36_nurbs_run :
  (do s <- np_set_control_point (exq_np false false) 0 1 (7, (5, tt))%Q; np_evaluate s 0%Q 3%Q) = Ok (1, (0, tt))%Q /\
  (do s <- np_set_control_point (exq_np false false) 0 1 (7, (5, tt))%Q; do s <- np_initialize s; np_evaluate s 0%Q 3%Q) =
    Ok (7, (5, tt))%Q.
Proof. vm_compute. auto. Qed.

(** C70: element setters of a rational Bezier patch, any number of calls.  The result is an initialized patch,
    so C37 applies to it. *)
Theorem C70_history : forall d (s : rbpatch R d) (ks : list (rp_call d)), rp_ready s ->
  let nu := S (Z.to_nat (rp_degu s)) in let nv := S (Z.to_nat (rp_degv s)) in
  Forall (fun k => (fst (rp_cell k) < nu)%nat /\ (snd (rp_cell k) < nv)%nat) ks ->
  exists s', rp_run ks s = Ok s' /\ rp_ready s' /\
    rp_degu s' = rp_degu s /\ rp_degv s' = rp_degv s /\ rp_peru s' = rp_peru s /\ rp_perv s' = rp_perv s /\
    forall x y, (x < nu)%nat -> (y < nv)%nat ->
      nth (x * nv + y) (rp_grid s') p0 = point_after ks x y (nth (x * nv + y) (rp_grid s) p0) /\
      nth (x * nv + y) (rp_weights s') 0 = weight_after ks x y (nth (x * nv + y) (rp_weights s) 0).
Proof. exact @rpatch_history. Qed.
Print Assumptions C70_history.

(** The setters of the whole grid and of all weights (same sizes) take effect at the next initialize() only. *)
Theorem C70_bulk_setters_stale : forall d (s : rbpatch R d) g ws u v,
  rp_initialize s = Ok s -> length g = length (rp_grid s) -> length ws = length (rp_weights s) ->
  rp_evaluate (rp_set_weights (rp_set_grid s g) ws) u v = rp_evaluate s u v.
Proof. exact @rpatch_bulk_stale. Qed.
Print Assumptions C70_bulk_setters_stale.

Example C70_hyp : exists s' : rbpatch R 2, rp_run [CellPoint 1%nat 0%nat ((5, (5, tt)) : vec R 2); CellWeight 1%nat 0%nat 7; CellPoint 1%nat 0%nat ((6, (6, tt)) : vec R 2)]
    (ex_rp (-1) (-1) false true) = Ok s' /\
  nth 2 (rp_grid s') p0 = ((6, (6, tt)) : vec R 2) /\ nth 2 (rp_weights s') 0 = 7.
Proof.
  destruct (rpatch_history (ex_rp (-1) (-1) false true)
    [CellPoint 1%nat 0%nat ((5, (5, tt)) : vec R 2); CellWeight 1%nat 0%nat 7; CellPoint 1%nat 0%nat ((6, (6, tt)) : vec R 2)] (proj1 ex_rp_ready))
    as (s' & E & _ & _ & _ & _ & _ & H).
  { repeat constructor. }
  exists s'. split; [exact E|]. apply (H 1%nat 0%nat); repeat constructor.
Qed.
Example C70_run :
  (do s <- rp_set_weight (exq_rp 2 1 false false) 1 0 7%Q; do s <- rp_set_control_point s 1 0 (6, (6, tt))%Q;
   rp_evaluate s (1#2) 0%Q) = Ok (43 # 8, (21 # 4, tt))%Q.
Proof. vm_compute. reflexivity. Qed.

(** C71: splits of a rational Bezier patch with static degrees.  [s'] is [s] with the periodic flags cleared: the
    parts are never periodic. *)
Theorem C71_split_u : forall d (s s' : rbpatch R d), rp_static s -> rp_flat s s' -> forall u, 0 < u < 1 ->
  exists a b, rp_split_u s u = Ok [a; b] /\ rp_static a /\ rp_static b /\
    forall x y, rp_evaluate a x y = rp_evaluate s' (u * x) y /\ rp_evaluate b x y = rp_evaluate s' (u + (1 - u) * x) y.
Proof. exact @rpatch_split_u. Qed.
Print Assumptions C71_split_u.

Theorem C71_split_v : forall d (s s' : rbpatch R d), rp_static s -> rp_flat s s' -> forall v, 0 < v < 1 ->
  exists a b, rp_split_v s v = Ok [a; b] /\ rp_static a /\ rp_static b /\
    forall x y, rp_evaluate a x y = rp_evaluate s' x (v * y) /\ rp_evaluate b x y = rp_evaluate s' x (v + (1 - v) * y).
Proof. exact @rpatch_split_v. Qed.
Print Assumptions C71_split_v.

Theorem C71_split : forall d (s s' : rbpatch R d), rp_static s -> rp_flat s s' -> forall u v, 0 < u < 1 -> 0 < v < 1 ->
  exists a b c e, rp_split s u v = Ok [a; b; c; e] /\ rp_static a /\ rp_static b /\ rp_static c /\ rp_static e /\
    forall x y,
      rp_evaluate a x y = rp_evaluate s' (u * x) (v * y) /\
      rp_evaluate b x y = rp_evaluate s' (u * x) (v + (1 - v) * y) /\
      rp_evaluate c x y = rp_evaluate s' (u + (1 - u) * x) (v * y) /\
      rp_evaluate e x y = rp_evaluate s' (u + (1 - u) * x) (v + (1 - v) * y).
Proof. exact @rpatch_split. Qed.
Print Assumptions C71_split.

Theorem C71_split_border : forall d (s : rbpatch R d), rp_static s -> forall u v,
  (u = 0 \/ u = 1 -> rp_split_u s u = Ok [s] /\ (v = 0 \/ v = 1 -> rp_split s u v = Ok [s]) /\
     (0 < v < 1 -> rp_split s u v = rp_split_v s v)) /\
  (v = 0 \/ v = 1 -> rp_split_v s v = Ok [s] /\ (0 < u < 1 -> rp_split s u v = rp_split_u s u)).
Proof. exact @rpatch_split_border. Qed.
Print Assumptions C71_split_border.

(** With dynamic degrees the parts are built with degree -1 and initialize() of them is undefined behaviour. *)
Theorem C71_split_dynamic_refuted : forall d (s : rbpatch R d) u, rp_initialize s = Ok s -> bp_tu (rp_hom s) = rp_tu s ->
  rp_tu s = (-1)%Z -> Forall (fun w => 0 < w) (rp_weights s) -> 0 <= u <= 1 -> rp_split_u s u = Undef.
Proof. exact @rpatch_split_dynamic. Qed.
Print Assumptions C71_split_dynamic_refuted.

(** subpatch has the error of C34. *)
Theorem C71_subpatch_refuted : exists (s a : rbpatch R 2), rp_static s /\ rp_peru s = false /\ rp_perv s = false /\
  rp_subpatch s (1/4) (1/2) 0 1 = Ok a /\
  rp_evaluate a 1 0 = Ok (10/13, (0, tt)) /\ rp_evaluate s (1/4 + (1/2 - 1/4) * 1) 0 = Ok (2/3, (0, tt)).
Proof. exact rpatch_subpatch_refuted. Qed.
Print Assumptions C71_subpatch_refuted.

Theorem C71_subpatch_actual : forall d (s : rbpatch R d) u0 u1 v0 v1, rp_static s -> rp_peru s = false -> rp_perv s = false ->
  0 <= u0 < u1 -> u1 <= 1 -> 0 <= v0 < v1 -> v1 <= 1 ->
  exists a, rp_subpatch s u0 u1 v0 v1 = Ok a /\ rp_static a /\
    forall x y, rp_evaluate a x y = rp_evaluate s (u0 + (1 - u0) * u1 * x) (v0 + (1 - v0) * v1 * y).
Proof. exact @rpatch_subpatch_actual. Qed.
Print Assumptions C71_subpatch_actual.

(** Missing: rectangles that do not touch a border in each direction, where the claim is false. *)
Theorem C71_subpatch_partial : forall d (s : rbpatch R d) u0 u1 v0 v1, rp_static s -> rp_peru s = false -> rp_perv s = false ->
  0 <= u0 < u1 -> u1 <= 1 -> 0 <= v0 < v1 -> v1 <= 1 -> u0 = 0 \/ u1 = 1 -> v0 = 0 \/ v1 = 1 ->
  exists a, rp_subpatch s u0 u1 v0 v1 = Ok a /\ rp_static a /\
    forall x y, rp_evaluate a x y = rp_evaluate s (u0 + (u1 - u0) * x) (v0 + (v1 - v0) * y).
Proof. exact @rpatch_subpatch_border. Qed.
Print Assumptions C71_subpatch_partial.

(** NURBS patches. *)
Theorem C71_nurbs_split_u : forall d (s : nupatch R d), np_ready s ->
  let p := Z.to_nat (np_degu s) in let q := Z.to_nat (np_degv s) in
  let ulo := dir_lo p (np_ku s) in let uhi := dir_hi p (np_ku s) in
  let vlo := dir_lo q (np_kv s) in let vhi := dir_hi q (np_kv s) in
  forall u, (1 <= p)%nat -> ulo < u < uhi -> apart_from (np_ku s) u ->
  exists a b, np_split_u s u = Ok [a; b] /\ np_part_of s a ulo u vlo vhi /\ np_part_of s b u uhi vlo vhi.
Proof. exact @nupatch_split_u. Qed.
Print Assumptions C71_nurbs_split_u.

Theorem C71_nurbs_split_v : forall d (s : nupatch R d), np_ready s ->
  let p := Z.to_nat (np_degu s) in let q := Z.to_nat (np_degv s) in
  let ulo := dir_lo p (np_ku s) in let uhi := dir_hi p (np_ku s) in
  let vlo := dir_lo q (np_kv s) in let vhi := dir_hi q (np_kv s) in
  forall v, (1 <= q)%nat -> vlo < v < vhi -> apart_from (np_kv s) v ->
  exists a b, np_split_v s v = Ok [a; b] /\ np_part_of s a ulo uhi vlo v /\ np_part_of s b ulo uhi v vhi.
Proof. exact @nupatch_split_v. Qed.
Print Assumptions C71_nurbs_split_v.

Theorem C71_nurbs_split : forall d (s : nupatch R d), np_ready s ->
  let p := Z.to_nat (np_degu s) in let q := Z.to_nat (np_degv s) in
  let ulo := dir_lo p (np_ku s) in let uhi := dir_hi p (np_ku s) in
  let vlo := dir_lo q (np_kv s) in let vhi := dir_hi q (np_kv s) in
  forall u v, (1 <= p)%nat -> (1 <= q)%nat -> ulo < u < uhi -> apart_from (np_ku s) u ->
  vlo < v < vhi -> apart_from (np_kv s) v ->
  exists a b c e, np_split s u v = Ok [a; b; c; e] /\
    np_part_of s a ulo u vlo v /\ np_part_of s b ulo u v vhi /\ np_part_of s c u uhi vlo v /\ np_part_of s e u uhi v vhi.
Proof. exact @nupatch_split. Qed.
Print Assumptions C71_nurbs_split.

Theorem C71_nurbs_split_ends : forall d (s : nupatch R d), np_ready s ->
  let p := Z.to_nat (np_degu s) in let q := Z.to_nat (np_degv s) in
  let ulo := dir_lo p (np_ku s) in let uhi := dir_hi p (np_ku s) in
  let vlo := dir_lo q (np_kv s) in let vhi := dir_hi q (np_kv s) in
  forall u v,
  ((u = ulo \/ u = uhi) -> np_split_u s u = Ok [s]) /\
  ((v = vlo \/ v = vhi) -> np_split_v s v = Ok [s]) /\
  ((u = ulo \/ u = uhi) -> (v = vlo \/ v = vhi) -> np_split s u v = Ok [s]) /\
  ((u = ulo \/ u = uhi) -> vlo < v < vhi -> np_split s u v = np_split_v s v) /\
  (ulo < u < uhi -> (v = vlo \/ v = vhi) -> np_split s u v = np_split_u s u).
Proof. exact @nupatch_split_ends. Qed.
Print Assumptions C71_nurbs_split_ends.

Theorem C71_nurbs_subpatch : forall d (s : nupatch R d), np_ready s ->
  let p := Z.to_nat (np_degu s) in let q := Z.to_nat (np_degv s) in
  let ulo := dir_lo p (np_ku s) in let uhi := dir_hi p (np_ku s) in
  let vlo := dir_lo q (np_kv s) in let vhi := dir_hi q (np_kv s) in
  forall u0 u1 v0 v1, (1 <= p)%nat -> (1 <= q)%nat ->
  ulo <= u0 -> u0 + / IZR (10 ^ 16) < u1 -> u1 <= uhi -> apart_from (np_ku s) u0 -> apart_from (np_ku s) u1 ->
  vlo <= v0 -> v0 + / IZR (10 ^ 16) < v1 -> v1 <= vhi -> apart_from (np_kv s) v0 -> apart_from (np_kv s) v1 ->
  exists a, np_subpatch s u0 u1 v0 v1 = Ok a /\ np_part_of s a u0 u1 v0 v1.
Proof. exact @nupatch_subpatch. Qed.
Print Assumptions C71_nurbs_subpatch.

Example C71_run :
  (do l <- rp_split_u (exq_rp 2 1 true false) (1#4); do a <- get l 1; rp_evaluate a (1#3) (1#2)) =
    rp_evaluate (exq_rp 2 1 false false) (1#2) (1#2) /\
  rp_split_u (exq_rp (-1) (-1) false false) (1#4) = Undef /\
  (do l <- np_split (exq_np false true) (3#2) (5#2); do a <- get l 3; np_evaluate a (7#4) (7#2)) =
    np_evaluate (exq_np false true) (7#4) (7#2) /\
  (do a <- np_subpatch (exq_np false true) (1#2) (3#2) (3#2) (5#2); np_evaluate a 1%Q 2%Q) = np_evaluate (exq_np false true) 1%Q 2%Q.
Proof. vm_compute. auto. Qed.

(** C72: iso curves.  compute_iso_curve_u(v) is the curve u -> patch(u, v). *)
Theorem C72_bezier : forall d (s : bpatch (vec R d)), bp_initialize s = Ok s ->
  (bp_tu s = -1 \/ bp_tu s = bp_degu s)%Z -> (bp_tv s = -1 \/ bp_tv s = bp_degv s)%Z ->
  (bp_peru s = true -> bp_tu s <> 1%Z) -> (bp_perv s = true -> bp_tv s <> 1%Z) ->
  (forall v, exists c, bp_iso_curve_u s v = Ok c /\ bz_periodic c = bp_peru s /\ bz_degree c = bp_degu s /\
     forall u, bzt_evaluate (bp_tu s) c u = bp_evaluate s u v) /\
  (forall u, exists c, bp_iso_curve_v s u = Ok c /\ bz_periodic c = bp_perv s /\ bz_degree c = bp_degv s /\
     forall v, bzt_evaluate (bp_tv s) c v = bp_evaluate s u v).
Proof. exact bpatch_iso. Qed.
Print Assumptions C72_bezier.

Theorem C72_bspline : forall d (s : spatch R (vec R d)),
  let p := Z.to_nat (sp_degu s) in let q := Z.to_nat (sp_degv s) in
  sp_initialize s = Ok s -> valid_dir p (sp_ku s) -> valid_dir q (sp_kv s) ->
  knots_apart (/ IZR (10 ^ 16)) (sp_ku s) -> knots_apart (/ IZR (10 ^ 16)) (sp_kv s) ->
  (forall v, dir_param (sp_perv s) q (sp_kv s) v ->
     exists c, sp_iso_curve_u s v = Ok c /\ bs_knots c = sp_ku s /\ bs_periodic c = sp_peru s /\
       forall u, dir_param (sp_peru s) p (sp_ku s) u -> bs_evaluate c u = sp_evaluate s u v) /\
  (forall u, dir_param (sp_peru s) p (sp_ku s) u ->
     exists c, sp_iso_curve_v s u = Ok c /\ bs_knots c = sp_kv s /\ bs_periodic c = sp_perv s /\
       forall v, dir_param (sp_perv s) q (sp_kv s) v -> bs_evaluate c v = sp_evaluate s u v).
Proof. exact spatch_iso. Qed.
Print Assumptions C72_bspline.

Theorem C72_rational_bezier : forall d (s : rbpatch R d), rp_ready s -> Forall (fun w => 0 < w) (rp_weights s) ->
  (forall v, (rp_perv s = true \/ 0 <= v <= 1) ->
     exists c, rp_iso_curve_u s v = Ok c /\ rb_periodic c = rp_peru s /\ Forall (fun w => 0 < w) (rb_weights c) /\
       forall u, rb_evaluate c u = rp_evaluate s u v) /\
  (forall u, (rp_peru s = true \/ 0 <= u <= 1) ->
     exists c, rp_iso_curve_v s u = Ok c /\ rb_periodic c = rp_perv s /\ Forall (fun w => 0 < w) (rb_weights c) /\
       forall v, rb_evaluate c v = rp_evaluate s u v).
Proof. exact rpatch_iso. Qed.
Print Assumptions C72_rational_bezier.

Theorem C72_nurbs : forall d (s : nupatch R d), np_valid s -> Forall (fun w => 0 < w) (np_weights s) ->
  let p := Z.to_nat (np_degu s) in let q := Z.to_nat (np_degv s) in
  (forall v, dir_param (np_perv s) q (np_kv s) v ->
     exists c, np_iso_curve_u s v = Ok c /\ nb_knots c = np_ku s /\ nb_periodic c = np_peru s /\
       Forall (fun w => 0 < w) (nb_weights c) /\
       forall u, dir_param (np_peru s) p (np_ku s) u -> nb_evaluate c u = np_evaluate s u v) /\
  (forall u, dir_param (np_peru s) p (np_ku s) u ->
     exists c, np_iso_curve_v s u = Ok c /\ nb_knots c = np_kv s /\ nb_periodic c = np_perv s /\
       Forall (fun w => 0 < w) (nb_weights c) /\
       forall v, dir_param (np_perv s) q (np_kv s) v -> nb_evaluate c v = np_evaluate s u v).
Proof. exact nupatch_iso. Qed.
Print Assumptions C72_nurbs.

Example C72_run :
  (do c <- bp_iso_curve_u (exq_bp 2 1 false false) (1#3); bzt_evaluate 2 c (1#4)) = bp_evaluate (exq_bp 2 1 false false) (1#4) (1#3) /\
  (do c <- sp_iso_curve_v (exq_sp false true) (1#3); bs_evaluate c 2%Q) = sp_evaluate (exq_sp false true) (1#3) 2%Q /\
  (do c <- rp_iso_curve_u (exq_rp 2 1 false false) (1#3); rb_evaluate c (1#4)) = rp_evaluate (exq_rp 2 1 false false) (1#4) (1#3) /\
  (do c <- np_iso_curve_v (exq_np false true) (1#3); nb_evaluate c 2%Q) = np_evaluate (exq_np false true) (1#3) 2%Q.
Proof. vm_compute. auto. Qed.

(** C73: values are convex combinations of the control points. *)
Theorem C73_bezier : forall d (s : bpatch (vec R d)) u v, bp_initialize s = Ok s ->
  (bp_tu s = -1 \/ bp_tu s = bp_degu s)%Z -> (bp_tv s = -1 \/ bp_tv s = bp_degv s)%Z ->
  (bp_peru s = true -> bp_tu s <> 1%Z) -> (bp_perv s = true -> bp_tv s <> 1%Z) ->
  (bp_peru s = true \/ 0 <= u <= 1) -> (bp_perv s = true \/ 0 <= v <= 1) ->
  exists q, bp_evaluate s u v = Ok q /\ convex_comb (bp_grid s) q.
Proof. exact bpatch_convex. Qed.
Print Assumptions C73_bezier.

Theorem C73_bspline : forall d (s : spatch R (vec R d)) u v,
  let p := Z.to_nat (sp_degu s) in let q := Z.to_nat (sp_degv s) in
  sp_initialize s = Ok s -> valid_dir p (sp_ku s) -> valid_dir q (sp_kv s) ->
  knots_apart (/ IZR (10 ^ 16)) (sp_ku s) -> knots_apart (/ IZR (10 ^ 16)) (sp_kv s) ->
  dir_param (sp_peru s) p (sp_ku s) u -> dir_param (sp_perv s) q (sp_kv s) v ->
  exists x, sp_evaluate s u v = Ok x /\ convex_comb (sp_grid s) x.
Proof. exact spatch_convex. Qed.
Print Assumptions C73_bspline.

Theorem C73_rational_bezier : forall d (s : rbpatch R d) u v, rp_ready s -> Forall (fun w => 0 < w) (rp_weights s) ->
  (rp_peru s = true \/ 0 <= u <= 1) -> (rp_perv s = true \/ 0 <= v <= 1) ->
  exists q, rp_evaluate s u v = Ok q /\ convex_comb (rp_grid s) q.
Proof. exact rpatch_convex. Qed.
Print Assumptions C73_rational_bezier.

Theorem C73_nurbs : forall d (s : nupatch R d) u v, np_valid s -> Forall (fun w => 0 < w) (np_weights s) ->
  dir_param (np_peru s) (Z.to_nat (np_degu s)) (np_ku s) u -> dir_param (np_perv s) (Z.to_nat (np_degv s)) (np_kv s) v ->
  exists q, np_evaluate s u v = Ok q /\ convex_comb (np_grid s) q.
Proof. exact nupatch_convex. Qed.
Print Assumptions C73_nurbs.

Example C73_hyp : exists q, np_evaluate (ex_np false true) (3/2) 17 = Ok q /\ convex_comb (np_grid (ex_np false true)) q.
Proof.
  destruct ex_np_valid as (H & Du & Dv). apply nupatch_convex; [exact H| |exact Du|exact Dv]. apply ex_np_ready.
Qed.
