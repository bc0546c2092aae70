(** Property theorems: B-spline patches (C35, C36, C66).  Statements only; the proofs are in
    BSplinePatchThms.v, BSplinePatchThms2.v and BSplinePatchRefute.v.

    [sp_initialize s = Ok s] says that the patch passes the checks of initialize() and that its cached iso
    curves are those of its current control grid.  [no_full_knot] is needed for the mixed derivative only:
    compute_du_patch and compute_dv_patch divide by knots[i+p+1]-knots[i+1] for every i. *)
From Coq Require Import Reals Lra Lia ZArith QArith List.
From Verif Require Import Monad Scalar Spec SpecPatch ModelCurve ModelBezier ModelBSpline ModelPatchBase ModelPatch
  ExampleFacts BSplinePatchThms2 BSplinePatchRefute.
Import ListNotations.
Local Open Scope R_scope.

(** A patch of degrees 2 x 1 with 4 x 3 control points, periodic in v. *)
Definition ex_sp_grid : list (vec R 2) :=
  [(0, (0, tt)); (1, (0, tt)); (2, (0, tt)); (0, (1, tt)); (1, (2, tt)); (2, (1, tt));
   (0, (3, tt)); (1, (3, tt)); (3, (3, tt)); (0, (4, tt)); (2, (4, tt)); (2, (5, tt))].
Definition ex_sp_raw (pu pv : bool) : spatch R (vec R 2) :=
  sp_make (-1) (-1) 2 1 ex_sp_grid (map IZR [0; 0; 0; 1; 2; 2; 2]%Z) (map IZR [0; 1; 3; 4; 6]%Z) pu pv.
Definition ex_sp (pu pv : bool) : spatch R (vec R 2) :=
  match sp_initialize (ex_sp_raw pu pv) with Ok s => s | _ => ex_sp_raw pu pv end.
Definition exq_sp_raw (pu pv : bool) : spatch Q (vec Q 2) :=
  sp_make (-1) (-1) 2 1
  [(0, (0, tt)); (1, (0, tt)); (2, (0, tt)); (0, (1, tt)); (1, (2, tt)); (2, (1, tt));
   (0, (3, tt)); (1, (3, tt)); (3, (3, tt)); (0, (4, tt)); (2, (4, tt)); (2, (5, tt))]%Q
  [0; 0; 0; 1; 2; 2; 2]%Q [0; 1; 3; 4; 6]%Q pu pv.
Definition exq_sp (pu pv : bool) : spatch Q (vec Q 2) :=
  match sp_initialize (exq_sp_raw pu pv) with Ok s => s | _ => exq_sp_raw pu pv end.

Example ex_sp_hyp :
  let s := ex_sp false true in
  sp_initialize s = Ok s /\ sp_isou s <> [] /\ sp_degu s = 2%Z /\ sp_degv s = 1%Z /\
  valid_dir 2 (sp_ku s) /\ valid_dir 1 (sp_kv s) /\
  knots_apart (/ IZR (10 ^ 16)) (sp_ku s) /\ knots_apart (/ IZR (10 ^ 16)) (sp_kv s) /\
  no_full_knot 2 (sp_ku s) /\ no_full_knot 1 (sp_kv s) /\
  dir_param (sp_peru s) 2 (sp_ku s) (3/2) /\ dir_param (sp_perv s) 1 (sp_kv s) 17.
Proof.
  split; [reflexivity|]. split; [discriminate|]. split; [reflexivity|]. split; [reflexivity|].
  split; [apply valid_dir_of_Z; reflexivity|]. split; [apply valid_dir_of_Z; reflexivity|].
  split; [apply apart_of_Z|]. split; [apply apart_of_Z|].
  split; [apply no_full_of_Z; reflexivity|]. split; [apply no_full_of_Z; reflexivity|].
  change (sp_ku (ex_sp false true)) with (map IZR [0; 0; 0; 1; 2; 2; 2]%Z).
  change (sp_kv (ex_sp false true)) with (map IZR [0; 1; 3; 4; 6]%Z).
  split; unfold dir_param, dir_lo, dir_hi; cbn; split.
  - right; lra.
  - left; lra.
  - left; reflexivity.
  - left; lra.
Qed.

(** C35 *)
Theorem C35_evaluate : forall d (s : spatch R (vec R d)) u v,
  let p := Z.to_nat (sp_degu s) in let q := Z.to_nat (sp_degv s) in
  let n := dir_count p (sp_ku s) in let m := dir_count q (sp_kv s) in
  sp_initialize s = Ok s -> valid_dir p (sp_ku s) -> valid_dir q (sp_kv s) ->
  knots_apart (/ IZR (10 ^ 16)) (sp_ku s) -> knots_apart (/ IZR (10 ^ 16)) (sp_kv s) ->
  dir_param (sp_peru s) p (sp_ku s) u -> dir_param (sp_perv s) q (sp_kv s) v ->
  exists u' v', wraps (sp_peru s) (dir_lo p (sp_ku s)) (dir_hi p (sp_ku s)) u u' /\
    wraps (sp_perv s) (dir_lo q (sp_kv s)) (dir_hi q (sp_kv s)) v v' /\
    sp_evaluate s u v = Ok (tensor_sum n m (bspline_basis n (sp_ku s) u') (bspline_basis m (sp_kv s) v') (sp_grid s)).
Proof. exact spatch_evaluate. Qed.
Print Assumptions C35_evaluate.

Example C35_run :
  sp_evaluate (exq_sp false true) (3#2) 5%Q = sp_evaluate (exq_sp false false) (3#2) 2%Q /\
  sp_evaluate (exq_sp false false) 0%Q 3%Q = Ok (1, (0, tt))%Q /\
  sp_evaluate (exq_sp false false) 2%Q 4%Q = Ok (2, (5, tt))%Q.
Proof. vm_compute. auto. Qed.

(** C66: on every non-empty knot rectangle, values and derivatives are those of one smooth function. *)
Theorem C66_derivatives : forall d (s : spatch R (vec R d)) k l,
  let p := Z.to_nat (sp_degu s) in let q := Z.to_nat (sp_degv s) in
  let n := dir_count p (sp_ku s) in let m := dir_count q (sp_kv s) in
  sp_initialize s = Ok s -> valid_dir p (sp_ku s) -> valid_dir q (sp_kv s) ->
  knots_apart (/ IZR (10 ^ 16)) (sp_ku s) -> knots_apart (/ IZR (10 ^ 16)) (sp_kv s) ->
  (p <= k < n)%nat -> nth k (sp_ku s) 0 < nth (k + 1) (sp_ku s) 0 ->
  (q <= l < m)%nat -> nth l (sp_kv s) 0 < nth (l + 1) (sp_kv s) 0 ->
  exists f fu fv fuu fvv fuv : R -> R -> vec R d,
    (forall u v, partials f fu fv fuu fvv fuv u v) /\
    forall u v u' v',
      dir_param (sp_peru s) p (sp_ku s) u -> wraps (sp_peru s) (dir_lo p (sp_ku s)) (dir_hi p (sp_ku s)) u u' ->
      dir_param (sp_perv s) q (sp_kv s) v -> wraps (sp_perv s) (dir_lo q (sp_kv s)) (dir_hi q (sp_kv s)) v v' ->
      span_set (sp_ku s) (dir_hi p (sp_ku s)) k u' -> span_set (sp_kv s) (dir_hi q (sp_kv s)) l v' ->
      sp_evaluate s u v = Ok (f u' v') /\
      sp_evaluate_derivative_u s u v = Ok (fu u' v') /\ sp_evaluate_derivative_v s u v = Ok (fv u' v') /\
      sp_evaluate_2nd_derivative_uu s u v = Ok (fuu u' v') /\ sp_evaluate_2nd_derivative_vv s u v = Ok (fvv u' v') /\
      (no_full_knot p (sp_ku s) -> no_full_knot q (sp_kv s) ->
       sp_evaluate_2nd_derivative_uv s u v = Ok (fuv u' v')).
Proof. exact spatch_derivatives. Qed.
Print Assumptions C66_derivatives.

(** The rectangles cover all parameters. *)
Theorem C66_spans_cover : forall p knots per t, valid_dir p knots -> dir_param per p knots t ->
  exists t' k, wraps per (dir_lo p knots) (dir_hi p knots) t t' /\ (p <= k < dir_count p knots)%nat /\
    nth k knots 0 < nth (k + 1) knots 0 /\ span_set knots (dir_hi p knots) k t'.
Proof. exact dir_cover. Qed.
Print Assumptions C66_spans_cover.

Example C66_run :
  sp_evaluate_2nd_derivative_uv (exq_sp false false) (1#2) 2%Q = Ok (0, (1#4, tt))%Q /\
  sp_evaluate_derivative_v (exq_sp false true) (1#2) 5%Q = sp_evaluate_derivative_v (exq_sp false false) (1#2) 2%Q.
Proof. vm_compute. auto. Qed.

(** C36 *)
Theorem C36_setter_refuted : exists (s s' s'' : spatch R (vec R 1)) a v,
  sp_initialize s = Ok s /\ valid_dir 1 (sp_ku s) /\ valid_dir 1 (sp_kv s) /\ sp_degu s = 1%Z /\ sp_degv s = 1%Z /\
  sp_set_control_point s 0 0 a = Ok s' /\ sp_initialize s' = Ok s'' /\
  sp_evaluate s' (1/2) (1/2) = Ok v /\ sp_evaluate s'' (1/2) (1/2) <> Ok v.
Proof. exact spatch_setter_refuted. Qed.
Print Assumptions C36_setter_refuted.

(** What happens instead: no value changes before the next initialize(). *)
Theorem C36_setter_actual : forall d (s s' : spatch R (vec R d)) i j a u v,
  sp_set_control_point s i j a = Ok s' -> sp_evaluate s' u v = sp_evaluate s u v.
Proof. exact spatch_setter_stale. Qed.
Print Assumptions C36_setter_actual.

(** The claim when initialize() is called after the setter; missing: without that call, where it is false. *)
Theorem C36_setter_partial : forall d (s : spatch R (vec R d)) i j a,
  let p := Z.to_nat (sp_degu s) in let q := Z.to_nat (sp_degv s) in
  let n := dir_count p (sp_ku s) in let m := dir_count q (sp_kv s) in
  sp_initialize s = Ok s -> valid_dir p (sp_ku s) -> valid_dir q (sp_kv s) ->
  knots_apart (/ IZR (10 ^ 16)) (sp_ku s) -> knots_apart (/ IZR (10 ^ 16)) (sp_kv s) ->
  (i < n)%nat -> (j < m)%nat ->
  exists s' s'' g, sp_set_control_point s (Z.of_nat i) (Z.of_nat j) a = Ok s' /\ sp_initialize s' = Ok s'' /\
    length g = length (sp_grid s) /\ nth (i * m + j) g p0 = a /\
    (forall x, x <> (i * m + j)%nat -> nth x g p0 = nth x (sp_grid s) p0) /\
    forall u v, dir_param (sp_peru s) p (sp_ku s) u -> dir_param (sp_perv s) q (sp_kv s) v ->
    exists u' v', wraps (sp_peru s) (dir_lo p (sp_ku s)) (dir_hi p (sp_ku s)) u u' /\
      wraps (sp_perv s) (dir_lo q (sp_kv s)) (dir_hi q (sp_kv s)) v v' /\
      sp_evaluate s'' u v = Ok (tensor_sum n m (bspline_basis n (sp_ku s) u') (bspline_basis m (sp_kv s) v') g).
Proof. exact spatch_setter_init. Qed.
Print Assumptions C36_setter_partial.
