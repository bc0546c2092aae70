(** Model of the overrides of approximate_inverse_evaluate in
    /repo/include/nanospline/RationalBezierPatch.h, BSplinePatch.h and NURBSPatch.h.

    Simplification: [int] level arguments are [nat]s ([level <= 0] is level 0), except where a level is passed
    on to the version of the base class. *)
From Coq Require Import ZArith List.
From Verif Require Import Monad Scalar ModelCurve ModelBezier ModelBSpline ModelPatchBase ModelPatch ModelRational
  ModelPatchRational ModelInverse.
Local Open Scope Z_scope.

Section BSplineInverse.
  Context {T P : Type} {SO : ScalarOps T} {V : PointOps T P}.
  Local Open Scope scal_scope.
  Local Open Scope Z_scope.

  (** A BSplinePatch seen through its virtual functions.  Simplification: the four bounds
      (BSplinePatch.h:122-146), which the code computes where they are used, are computed first. *)
  Definition sp_ops (s : spatch T P) : res (patch_ops T P) :=
    do ulo <- sp_ulo s; do uhi <- sp_uhi s; do vlo <- sp_vlo s; do vhi <- sp_vhi s;
    Ok {| s_ulo := ulo; s_uhi := uhi; s_vlo := vlo; s_vhi := vhi;
          s_eval := sp_evaluate s; s_du := sp_evaluate_derivative_u s; s_dv := sp_evaluate_derivative_v s;
          s_duu := sp_evaluate_2nd_derivative_uu s; s_dvv := sp_evaluate_2nd_derivative_vv s;
          s_duv := sp_evaluate_2nd_derivative_uv s |}.

  (** BSplinePatch.h:151-156, 157-160: [(knots[1 + i] + ... + knots[degree + i]) / degree]. *)
  Definition greville (knots : list T) (deg i : Z) : res T :=
    do sum <- for_up 0 deg (fun k sum => do x <- get knots (1 + i + k); Ok (sum + x)%S) s0;
    ddiv sum (sofZ deg).

  (** BSplinePatch.h:148-162 get_control_point_preimage. *)
  Definition sp_preimage (s : spatch T P) (i j : Z) : res (T * T) :=
    do du <- checked_degree (sp_degu s);
    do a <- greville (sp_ku s) du i;
    do dv <- checked_degree (sp_degv s);
    do b <- greville (sp_kv s) dv j;
    Ok (a, b).

  (** BSplinePatch.h:663-668, NURBSPatch.h:378-383 clamp_2d. *)
  Definition clamp_to (u0 u1 v0 v1 : T) (uv : T * T) : T * T :=
    (smin (smax (fst uv) u0) u1, smin (smax (snd uv) v0) v1).

  (** BSplinePatch.h:621-703 approximate_inverse_evaluate.  Two of the calls of the base class version use its
      default level 3 (PatchBase.h:235-242), the other one passes [level] on. *)
  Fixpoint sp_approx_inverse (s : spatch T P) (p : P) (nsu nsv : Z) (min_u max_u min_v max_v : T) (level : nat)
    : res (T * T) :=
    let base l := do ops <- sp_ops s; patch_approx_inverse ops p nsu nsv min_u max_u min_v max_v l in
    if sp_peru s || sp_perv s then base 3%nat
    else
      do du <- checked_degree (sp_degu s);
      do low_degree <- (if du <? 2 then Ok true else do dv <- checked_degree (sp_degv s); Ok (dv <? 2));
      if low_degree : bool then base level
      else
        do nu <- sp_nu s;
        do few <- (if nu <=? 3 then Ok true else do nv <- sp_nv s; Ok (nv <=? 3));
        if few : bool then base 3%nat
        else
          do nv <- sp_nv s;
          do ulo <- sp_ulo s; do uhi <- sp_uhi s; do vlo <- sp_vlo s; do vhi <- sp_vhi s;
          let u0 := smax min_u ulo in let u1 := smin max_u uhi in
          let v0 := smax min_v vlo in let v1 := smin max_v vhi in
          do a <- sp_subpatch s u0 u1 v0 v1;
          do anu <- sp_nu a; do anv <- sp_nv a;
          do '(i, j) <- find_closest_control_point (sp_grid a) anu anv p;
          match level with
          | O =>
              do uv <- sp_preimage a i j;
              Ok (clamp_to u0 u1 v0 v1 uv)
          | Datatypes.S level' =>
              do lo <- sp_preimage a (if 0 <? i then i - 1 else i) (if 0 <? j then j - 1 else j);
              do hi <- sp_preimage a (if i <? nu - 1 then i + 1 else i) (if j <? nv - 1 then j + 1 else j);
              let lo := clamp_to u0 u1 v0 v1 lo in let hi := clamp_to u0 u1 v0 v1 hi in
              sp_approx_inverse a p nsu nsv (fst lo) (fst hi) (snd lo) (snd hi) level'
          end.
End BSplineInverse.

Section RationalInverse.
  Context {T : Type} {SO : ScalarOps T} {d : nat}.
  Local Open Scope scal_scope.
  Local Open Scope Z_scope.
  Local Notation pt := (vec T d).

  (** A RationalBezierPatch seen through its virtual functions (RationalBezierPatch.h:165-171 the bounds). *)
  Definition rp_ops (s : rbpatch T d) : patch_ops T pt :=
    {| s_ulo := s0; s_uhi := s1; s_vlo := s0; s_vhi := s1;
       s_eval := rp_evaluate s; s_du := rp_evaluate_derivative_u s; s_dv := rp_evaluate_derivative_v s;
       s_duu := rp_evaluate_2nd_derivative_uu s; s_dvv := rp_evaluate_2nd_derivative_vv s;
       s_duv := rp_evaluate_2nd_derivative_uv s |}.

  (** RationalBezierPatch.h:295-384 approximate_inverse_evaluate; num_control_points_u/v (39-40) and
      get_control_point_preimage (42-45) are those of the homogeneous patch, get_control_point (PatchBase.h:199-202)
      reads the control points of the patch itself. *)
  Fixpoint rp_approx_inverse (s : rbpatch T d) (p : pt) (nsu nsv : Z) (min_u max_u min_v max_v : T) (level : nat)
    : res (T * T) :=
    let base := patch_approx_inverse (rp_ops s) p nsu nsv min_u max_u min_v max_v 3 in
    if rp_peru s || rp_perv s then base
    else
      do du <- checked_degree (rp_degu s);
      do low_degree <- (if du <? 2 then Ok true else do dv <- checked_degree (rp_degv s); Ok (dv <? 2));
      if low_degree : bool then base
      else
        do nu <- bp_nu (rp_hom s);
        do few <- (if nu <=? 3 then Ok true else do nv <- bp_nv (rp_hom s); Ok (nv <=? 3));
        if few : bool then base
        else
          do nv <- bp_nv (rp_hom s);
          let u0 := smax min_u s0 in let u1 := smin max_u s1 in
          let v0 := smax min_v s0 in let v1 := smin max_v s1 in
          do a <- rp_subpatch s u0 u1 v0 v1;
          do anu <- bp_nu (rp_hom a); do anv <- bp_nv (rp_hom a);
          do '(i, j) <- find_closest_control_point (rp_grid a) anu anv p;
          match level with
          | O =>
              do uv <- bp_preimage (rp_hom a) i j;
              Ok (remap_2d u0 u1 v0 v1 (clamp_2d uv))
          | Datatypes.S level' =>
              do lo <- bp_preimage (rp_hom a) (if 0 <? i then i - 1 else i) (if 0 <? j then j - 1 else j);
              do hi <- bp_preimage (rp_hom a) (if i <? nu - 1 then i + 1 else i) (if j <? nv - 1 then j + 1 else j);
              let lo := clamp_2d lo in let hi := clamp_2d hi in
              do uv <- rp_approx_inverse a p nsu nsv (fst lo) (fst hi) (snd lo) (snd hi) level';
              Ok (remap_2d u0 u1 v0 v1 uv)
          end.

  (** A NURBSPatch seen through its virtual functions (NURBSPatch.h:161-167 the bounds, computed first). *)
  Definition np_ops (s : nupatch T d) : res (patch_ops T pt) :=
    do ulo <- sp_ulo (np_hom s); do uhi <- sp_uhi (np_hom s); do vlo <- sp_vlo (np_hom s); do vhi <- sp_vhi (np_hom s);
    Ok {| s_ulo := ulo; s_uhi := uhi; s_vlo := vlo; s_vhi := vhi;
          s_eval := np_evaluate s; s_du := np_evaluate_derivative_u s; s_dv := np_evaluate_derivative_v s;
          s_duu := np_evaluate_2nd_derivative_uu s; s_dvv := np_evaluate_2nd_derivative_vv s;
          s_duv := np_evaluate_2nd_derivative_uv s |}.

  (** NURBSPatch.h:331-415 approximate_inverse_evaluate; num_control_points_u/v (40-42),
      get_control_point_preimage (44-47) and the bounds (161-167) are those of the homogeneous patch. *)
  Fixpoint np_approx_inverse (s : nupatch T d) (p : pt) (nsu nsv : Z) (min_u max_u min_v max_v : T) (level : nat)
    : res (T * T) :=
    let base := do ops <- np_ops s; patch_approx_inverse ops p nsu nsv min_u max_u min_v max_v 3 in
    if np_peru s || np_perv s then base
    else
      do du <- checked_degree (np_degu s);
      do low_degree <- (if du <? 2 then Ok true else do dv <- checked_degree (np_degv s); Ok (dv <? 2));
      if low_degree : bool then base
      else
        do nu <- sp_nu (np_hom s);
        do few <- (if nu <=? 3 then Ok true else do nv <- sp_nv (np_hom s); Ok (nv <=? 3));
        if few : bool then base
        else
          do nv <- sp_nv (np_hom s);
          do ulo <- sp_ulo (np_hom s); do uhi <- sp_uhi (np_hom s);
          do vlo <- sp_vlo (np_hom s); do vhi <- sp_vhi (np_hom s);
          let u0 := smax min_u ulo in let u1 := smin max_u uhi in
          let v0 := smax min_v vlo in let v1 := smin max_v vhi in
          do a <- np_subpatch s u0 u1 v0 v1;
          do anu <- sp_nu (np_hom a); do anv <- sp_nv (np_hom a);
          do '(i, j) <- find_closest_control_point (np_grid a) anu anv p;
          match level with
          | O =>
              do uv <- sp_preimage (np_hom a) i j;
              Ok (clamp_to u0 u1 v0 v1 uv)
          | Datatypes.S level' =>
              do lo <- sp_preimage (np_hom a) (if 0 <? i then i - 1 else i) (if 0 <? j then j - 1 else j);
              do hi <- sp_preimage (np_hom a) (if i <? nu - 1 then i + 1 else i) (if j <? nv - 1 then j + 1 else j);
              let lo := clamp_to u0 u1 v0 v1 lo in let hi := clamp_to u0 u1 v0 v1 hi in
              np_approx_inverse a p nsu nsv (fst lo) (fst hi) (snd lo) (snd hi) level'
          end.
End RationalInverse.
