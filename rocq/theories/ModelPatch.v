(** Model of /repo/include/nanospline/BezierPatch.h and BSplinePatch.h. *)
From Coq Require Import QArith.
From Verif Require Import Monad Scalar ModelCurve ModelBezier ModelBSpline ModelPatchBase.
Local Open Scope Z_scope.

Section Patch.
  Context {T P : Type} {SO : ScalarOps T} {V : PointOps T P}.
  Local Open Scope scal_scope.
  Local Open Scope Z_scope.

  (** PatchBase.h:199-202 get_control_point. *)
  Definition grid_get (grid : list P) (nv i j : Z) : res P := get grid (linear_index nv i j).

  (** * BezierPatch *)

  (** PatchBase.h:443-449 m_degree_u, m_degree_v, m_control_grid, m_periodic_u, m_periodic_v, together with
      the template arguments _degree_u, _degree_v (-1 means dynamic). *)
  Record bpatch := {
    bp_tu : Z; bp_tv : Z;            (* template arguments *)
    bp_degu : Z; bp_degv : Z;        (* m_degree_u, m_degree_v *)
    bp_grid : list P;
    bp_peru : bool; bp_perv : bool;
  }.

  (** BezierPatch.h:39-43: the constructor. *)
  Definition bp_new (tu tv : Z) : bpatch :=
    {| bp_tu := tu; bp_tv := tv; bp_degu := tu; bp_degv := tv; bp_grid := []; bp_peru := false; bp_perv := false |}.

  (** PatchBase.h:70-72 set_degree_u/v, 97-113 set_control_grid, 117-118 set_periodic_u/v. *)
  Definition bp_set_degrees (s : bpatch) (du dv : Z) : bpatch :=
    {| bp_tu := bp_tu s; bp_tv := bp_tv s; bp_degu := du; bp_degv := dv; bp_grid := bp_grid s;
       bp_peru := bp_peru s; bp_perv := bp_perv s |}.
  Definition bp_set_grid (s : bpatch) (g : list P) : bpatch :=
    {| bp_tu := bp_tu s; bp_tv := bp_tv s; bp_degu := bp_degu s; bp_degv := bp_degv s; bp_grid := g;
       bp_peru := bp_peru s; bp_perv := bp_perv s |}.
  Definition bp_set_periodic (s : bpatch) (pu pv : bool) : bpatch :=
    {| bp_tu := bp_tu s; bp_tv := bp_tv s; bp_degu := bp_degu s; bp_degv := bp_degv s; bp_grid := bp_grid s;
       bp_peru := pu; bp_perv := pv |}.

  (** PatchBase.h:74-84 get_degree_u/v. *)
  Definition checked_degree (d : Z) : res Z := do _ <- assert_ (0 <=? d); Ok d.

  (** BezierPatch.h:267-277 num_control_points_u/v. *)
  Definition bp_nu (s : bpatch) : res Z := do d <- checked_degree (bp_degu s); Ok (d + 1).
  Definition bp_nv (s : bpatch) : res Z := do d <- checked_degree (bp_degv s); Ok (d + 1).

  (** BezierPatch.h:90-100 initialize. *)
  Definition bp_initialize (s : bpatch) : res bpatch :=
    do du <- checked_degree (bp_degu s);
    do dv <- checked_degree (bp_degv s);
    if (du <? 0) || (dv <? 0) then Throw invalid_setting_error
    else if negb (zlen (bp_grid s) =? (du + 1) * (dv + 1)) then Throw invalid_setting_error
    else Ok s.

  (** PatchBase.h:204-207 set_control_point. *)
  Definition bp_set_control_point (s : bpatch) (i j : Z) (p : P) : res bpatch :=
    do nv <- bp_nv s;
    do g <- set (bp_grid s) (linear_index nv i j) p;
    Ok (bp_set_grid s g).

  (** BezierPatch.h:21-22 IsoCurveU, IsoCurveV = Bezier<Scalar, dim, degree>: template degrees 0..3 select
      the specialised classes of Bezier.h (428-482, 485-578, 581-770, 773-1037), every other one the generic
      class (23-425).  The degree 0 class has no split, so a patch of template degree 0 that is split does
      not compile; it is given the generic one. *)
  Definition bzt {A} (tdeg : Z) (f0 f1 f2 f3 fg : A) : A :=
    if tdeg =? 0 then f0 else if tdeg =? 1 then f1 else if tdeg =? 2 then f2 else if tdeg =? 3 then f3 else fg.
  Definition bzt_evaluate (tdeg : Z) : bezier P -> T -> res P :=
    bzt tdeg bz0_evaluate bz1_evaluate bz2_evaluate bz3_evaluate bz_evaluate.
  Definition bzt_evaluate_derivative (tdeg : Z) : bezier P -> T -> res P :=
    bzt tdeg bz0_evaluate_derivative bz1_evaluate_derivative bz2_evaluate_derivative bz3_evaluate_derivative
      bz_evaluate_derivative.
  Definition bzt_evaluate_2nd_derivative (tdeg : Z) : bezier P -> T -> res P :=
    bzt tdeg bz0_evaluate_2nd_derivative bz1_evaluate_2nd_derivative bz2_evaluate_2nd_derivative
      bz3_evaluate_2nd_derivative bz_evaluate_2nd_derivative.
  Definition bzt_split (tdeg : Z) : bezier P -> T -> res (list (bezier P)) :=
    bzt tdeg bz_split bz1_split bz2_split bz3_split bz_split.

  (** [typename IsoCurve::ControlPoints pts(n, _dim)] (BezierPatch.h:154, 171, 291, 316; Bezier.h, BezierBase.h:
      Eigen::Matrix<Scalar, degree+1 or Dynamic, dim>): Eigen asserts that a fixed number of rows is not changed. *)
  Definition check_rows (tdeg n : Z) : res unit := assert_ ((tdeg <? 0) || (n =? tdeg + 1)).

  (** BezierPatch.h:284-303 get_all_iso_curves_v. *)
  Definition bp_iso_curves_v (s : bpatch) : res (list (bezier P)) :=
    do nu <- bp_nu s;
    do nv <- bp_nv s;
    tabulate nu (fun ui =>
      do _ <- check_rows (bp_tv s) nv;
      do pts <- tabulate nv (fun vj => grid_get (bp_grid s) nv ui vj);
      Ok {| bz_pts := pts; bz_periodic := bp_perv s |}).

  (** BezierPatch.h:309-327 get_all_iso_curves_u. *)
  Definition bp_iso_curves_u (s : bpatch) : res (list (bezier P)) :=
    do nu <- bp_nu s;
    do nv <- bp_nv s;
    tabulate nv (fun vj =>
      do _ <- check_rows (bp_tu s) nu;
      do pts <- tabulate nu (fun ui => grid_get (bp_grid s) nv ui vj);
      Ok {| bz_pts := pts; bz_periodic := bp_peru s |}).

  (** BezierPatch.h:151-166 compute_iso_curve_u. *)
  Definition bp_iso_curve_u (s : bpatch) (v : T) : res (bezier P) :=
    do nu <- bp_nu s;
    do _ <- check_rows (bp_tu s) nu;
    do isos <- bp_iso_curves_v s;
    do pts <- tabulate nu (fun i => do c <- get isos i; bzt_evaluate (bp_tv s) c v);
    Ok {| bz_pts := pts; bz_periodic := bp_peru s |}.

  (** BezierPatch.h:168-182 compute_iso_curve_v. *)
  Definition bp_iso_curve_v (s : bpatch) (u : T) : res (bezier P) :=
    do nv <- bp_nv s;
    do _ <- check_rows (bp_tv s) nv;
    do isos <- bp_iso_curves_u s;
    do pts <- tabulate nv (fun i => do c <- get isos i; bzt_evaluate (bp_tu s) c u);
    Ok {| bz_pts := pts; bz_periodic := bp_perv s |}.

  (** BezierPatch.h:49-58 evaluate. *)
  Definition bp_evaluate (s : bpatch) (u v : T) : res P :=
    if bp_degu s <? bp_degv s then
      do c <- bp_iso_curve_v s u; bzt_evaluate (bp_tv s) c v
    else
      do c <- bp_iso_curve_u s v; bzt_evaluate (bp_tu s) c u.

  (** BezierPatch.h:60-82 evaluate_derivative_u, _v, evaluate_2nd_derivative_uu, _vv. *)
  Definition bp_evaluate_derivative_u (s : bpatch) (u v : T) : res P :=
    do c <- bp_iso_curve_u s v; bzt_evaluate_derivative (bp_tu s) c u.
  Definition bp_evaluate_derivative_v (s : bpatch) (u v : T) : res P :=
    do c <- bp_iso_curve_v s u; bzt_evaluate_derivative (bp_tv s) c v.
  Definition bp_evaluate_2nd_derivative_uu (s : bpatch) (u v : T) : res P :=
    do c <- bp_iso_curve_u s v; bzt_evaluate_2nd_derivative (bp_tu s) c u.
  Definition bp_evaluate_2nd_derivative_vv (s : bpatch) (u v : T) : res P :=
    do c <- bp_iso_curve_v s u; bzt_evaluate_2nd_derivative (bp_tv s) c v.

  (** BezierPatch.h:26-36 ZeroPatch. *)
  Definition bp_zero (tu tv : Z) : res bpatch :=
    let du := if 0 <? tu then tu else 0 in
    let dv := if 0 <? tv then tv else 0 in
    do g <- alloc p0 ((du + 1) * (dv + 1));
    bp_initialize (bp_set_grid (bp_set_degrees (bp_new tu tv) du dv) g).

  (** Filling a grid of [nu * nv] rows: [for i<nu, for j<nv: g.row(i*nv+j) = f(i,j)]. *)
  Definition fill_grid (nu nv : Z) (f : Z -> Z -> res P) : res (list P) :=
    do g <- alloc p0 (nu * nv);
    for_up 0 nu (fun i g =>
      for_up 0 nv (fun j g =>
        let row_id := i * nv + j in
        do a <- f i j;
        set g row_id a) g) g.

  (** BezierPatch.h:184-209 compute_du_patch. *)
  Definition bp_du_patch (s : bpatch) : res bpatch :=
    do du <- checked_degree (bp_degu s);
    do dv <- checked_degree (bp_degv s);
    if du =? 0 then bp_zero (-1) (-1)
    else
      let gp i j := do nv <- bp_nv s; grid_get (bp_grid s) nv i j in
      do g <- fill_grid du (dv + 1) (fun i j =>
        do a <- gp (i + 1) j; do b <- gp i j; Ok (sofZ du *: (a - b))%P);
      bp_initialize (bp_set_grid (bp_set_degrees (bp_new (-1) (-1)) (du - 1) dv) g).

  (** BezierPatch.h:211-236 compute_dv_patch. *)
  Definition bp_dv_patch (s : bpatch) : res bpatch :=
    do du <- checked_degree (bp_degu s);
    do dv <- checked_degree (bp_degv s);
    if dv =? 0 then bp_zero (-1) (-1)
    else
      let gp i j := do nv <- bp_nv s; grid_get (bp_grid s) nv i j in
      do g <- fill_grid (du + 1) dv (fun i j =>
        do a <- gp i (j + 1); do b <- gp i j; Ok (sofZ dv *: (a - b))%P);
      bp_initialize (bp_set_grid (bp_set_degrees (bp_new (-1) (-1)) du (dv - 1)) g).

  (** BezierPatch.h:238-265 compute_duv_patch. *)
  Definition bp_duv_patch (s : bpatch) : res bpatch :=
    do du <- checked_degree (bp_degu s);
    do dv <- checked_degree (bp_degv s);
    if (du =? 0) || (dv =? 0) then bp_zero (-1) (-1)
    else
      let gp i j := do nv <- bp_nv s; grid_get (bp_grid s) nv i j in
      do g <- fill_grid du dv (fun i j =>
        do a <- gp (i + 1) j; do b <- gp i j;
        let pu0 := (sofZ du *: (a - b))%P in
        do a <- gp (i + 1) (j + 1); do b <- gp i (j + 1);
        let pu1 := (sofZ du *: (a - b))%P in
        Ok (sofZ dv *: (pu1 - pu0))%P);
      bp_initialize (bp_set_periodic (bp_set_grid (bp_set_degrees (bp_new (-1) (-1)) (du - 1) (dv - 1)) g)
                       (bp_peru s) (bp_perv s)).

  (** BezierPatch.h:84-88 evaluate_2nd_derivative_uv. *)
  Definition bp_evaluate_2nd_derivative_uv (s : bpatch) (u v : T) : res P :=
    do d <- bp_duv_patch s; bp_evaluate d u v.

  (** The two loops of split_u / split_v that copy one split curve into its grid:
      [for k<n: g.row(index(k)) = ctrl_pts.row(k)]. *)
  Definition copy_rows (n : Z) (index : Z -> Z) (pts g : list P) : res (list P) :=
    for_up 0 n (fun k g => do a <- get pts k; set g (index k) a) g.

  (** BezierPatch.h:331-370 split_u. *)
  Definition bp_split_u (s : bpatch) (u : T) : res (list bpatch) :=
    if negb (in_domain_1 s0 s1 u) then Throw invalid_setting_error
    else if is_endpoint_1 s0 s1 u then Ok [s]
    else
      do isos <- bp_iso_curves_u s;
      do nu <- bp_nu s;
      do nv <- bp_nv s;
      do g0 <- alloc p0 (nu * nv);
      do g1 <- alloc p0 (nu * nv);
      do '(g0, g1) <- for_up 0 nv (fun vj st =>
        let '(g0, g1) := st in
        do iso <- get isos vj;
        do parts <- split_bezier (bzt_split (bp_tu s)) iso u;
        do c0 <- get parts 0;
        do g0 <- copy_rows nu (fun ui => linear_index nv ui vj) (bz_pts c0) g0;
        do c1 <- get parts 1;
        do g1 <- copy_rows nu (fun ui => linear_index nv ui vj) (bz_pts c1) g1;
        Ok (g0, g1)) (g0, g1);
      let fresh := bp_new (bp_tu s) (bp_tv s) in
      Ok [bp_set_grid fresh g0; bp_set_grid fresh g1].

  (** BezierPatch.h:373-411 split_v. *)
  Definition bp_split_v (s : bpatch) (v : T) : res (list bpatch) :=
    if negb (in_domain_1 s0 s1 v) then Throw invalid_setting_error
    else if is_endpoint_1 s0 s1 v then Ok [s]
    else
      do isos <- bp_iso_curves_v s;
      do nu <- bp_nu s;
      do nv <- bp_nv s;
      do g0 <- alloc p0 (nu * nv);
      do g1 <- alloc p0 (nu * nv);
      do '(g0, g1) <- for_up 0 nu (fun ui st =>
        let '(g0, g1) := st in
        do iso <- get isos ui;
        do parts <- split_bezier (bzt_split (bp_tv s)) iso v;
        do c0 <- get parts 0;
        do g0 <- copy_rows nv (fun vj => linear_index nv ui vj) (bz_pts c0) g0;
        do c1 <- get parts 1;
        do g1 <- copy_rows nv (fun vj => linear_index nv ui vj) (bz_pts c1) g1;
        Ok (g0, g1)) (g0, g1);
      let fresh := bp_new (bp_tu s) (bp_tv s) in
      Ok [bp_set_grid fresh g0; bp_set_grid fresh g1].

  (** BezierPatch.h:414-457 split. *)
  Definition bp_split (s : bpatch) (u v : T) : res (list bpatch) :=
    let eu := is_endpoint_1 s0 s1 u in
    let ev := is_endpoint_1 s0 s1 v in
    if eu && ev then Ok [s]
    else if eu then bp_split_v s v
    else if ev then bp_split_u s u
    else
      do ps <- bp_split_u s u;
      do less <- get ps 0;
      do greater <- get ps 1;
      do l <- bp_split_v less v;
      do g <- bp_split_v greater v;
      do l0 <- get l 0; do l1 <- get l 1; do g0 <- get g 0; do g1 <- get g 1;
      Ok [l0; l1; g0; g1].

  (** BezierPatch.h:459-494 subpatch. *)
  Definition bp_subpatch (s : bpatch) (u_min u_max v_min v_max : T) : res bpatch :=
    if (u_max <? u_min)%S then Throw invalid_setting_error
    else if negb (in_domain_1 s0 s1 u_min) || negb (in_domain_1 s0 s1 u_max) then Throw invalid_setting_error
    else if (v_max <? v_min)%S then Throw invalid_setting_error
    else if negb (in_domain_1 s0 s1 v_min) || negb (in_domain_1 s0 s1 v_max) then Throw invalid_setting_error
    else
      do a <- (if is_endpoint_1 s0 s1 u_min then Ok s else do l <- bp_split_u s u_min; get l 1);
      do b <- (if is_endpoint_1 s0 s1 u_max then Ok a else do l <- bp_split_u a u_max; get l 0);
      do c <- (if is_endpoint_1 s0 s1 v_min then Ok b else do l <- bp_split_v b v_min; get l 1);
      (if is_endpoint_1 s0 s1 v_max then Ok c else do l <- bp_split_v c v_max; get l 0).

  (** The virtual functions of a BezierPatch object; bounds BezierPatch.h:102-108. *)
  Definition bp_ops (s : bpatch) : patch_ops T P :=
    {| s_ulo := s0; s_uhi := s1; s_vlo := s0; s_vhi := s1;
       s_eval := bp_evaluate s; s_du := bp_evaluate_derivative_u s; s_dv := bp_evaluate_derivative_v s;
       s_duu := bp_evaluate_2nd_derivative_uu s; s_dvv := bp_evaluate_2nd_derivative_vv s;
       s_duv := bp_evaluate_2nd_derivative_uv s |}.

  (** * BSplinePatch *)

  (** As above with BSplinePatch.h:791-796 m_knots_u, m_knots_v and the cached m_iso_curves_u, m_iso_curves_v. *)
  Record spatch := {
    sp_tu : Z; sp_tv : Z;
    sp_degu : Z; sp_degv : Z;
    sp_grid : list P;
    sp_ku : list T; sp_kv : list T;
    sp_peru : bool; sp_perv : bool;
    sp_isou : list (bspline T P); sp_isov : list (bspline T P);
  }.

  (** A default constructed patch (BSplinePatch.h:53-57) after set_degree_u/v, set_control_grid,
      set_knots_u/v and set_periodic_u/v, before initialize. *)
  Definition sp_make (tu tv du dv : Z) (g : list P) (ku kv : list T) (pu pv : bool) : spatch :=
    {| sp_tu := tu; sp_tv := tv; sp_degu := du; sp_degv := dv; sp_grid := g; sp_ku := ku; sp_kv := kv;
       sp_peru := pu; sp_perv := pv; sp_isou := []; sp_isov := [] |}.

  (** BSplinePatch.h:320-332 num_control_points_u/v. *)
  Definition sp_nu (s : spatch) : res Z := do d <- checked_degree (sp_degu s); Ok (zlen (sp_ku s) - d - 1).
  Definition sp_nv (s : spatch) : res Z := do d <- checked_degree (sp_degv s); Ok (zlen (sp_kv s) - d - 1).

  (** BSplinePatch.h:341-364 compute_all_iso_curves_u. *)
  Definition sp_iso_curves_u (s : spatch) : res (list (bspline T P)) :=
    do nu <- sp_nu s;
    do nv <- sp_nv s;
    tabulate nv (fun vj =>
      do pts <- tabulate nu (fun ui => grid_get (sp_grid s) nv ui vj);
      Ok {| bs_pts := pts; bs_knots := sp_ku s; bs_periodic := sp_peru s |}).

  (** BSplinePatch.h:370-393 compute_all_iso_curves_v. *)
  Definition sp_iso_curves_v (s : spatch) : res (list (bspline T P)) :=
    do nu <- sp_nu s;
    do nv <- sp_nv s;
    tabulate nu (fun ui =>
      do pts <- tabulate nv (fun vj => grid_get (sp_grid s) nv ui vj);
      Ok {| bs_pts := pts; bs_knots := sp_kv s; bs_periodic := sp_perv s |}).

  (** BSplinePatch.h:104-120 initialize. *)
  Definition sp_initialize (s : spatch) : res spatch :=
    do du <- checked_degree (sp_degu s);
    do dv <- checked_degree (sp_degv s);
    if (du <? 0) || (dv <? 0) then Throw invalid_setting_error
    else if negb (zlen (sp_grid s) =? (zlen (sp_ku s) - du - 1) * (zlen (sp_kv s) - dv - 1)) then Throw invalid_setting_error
    else
      do iu <- sp_iso_curves_u s;
      do iv <- sp_iso_curves_v s;
      Ok {| sp_tu := sp_tu s; sp_tv := sp_tv s; sp_degu := sp_degu s; sp_degv := sp_degv s; sp_grid := sp_grid s;
            sp_ku := sp_ku s; sp_kv := sp_kv s; sp_peru := sp_peru s; sp_perv := sp_perv s;
            sp_isou := iu; sp_isov := iv |}.

  (** PatchBase.h:204-207 set_control_point (the cached iso curves are not touched). *)
  Definition sp_set_control_point (s : spatch) (i j : Z) (p : P) : res spatch :=
    do nv <- sp_nv s;
    do g <- set (sp_grid s) (linear_index nv i j) p;
    Ok {| sp_tu := sp_tu s; sp_tv := sp_tv s; sp_degu := sp_degu s; sp_degv := sp_degv s; sp_grid := g;
          sp_ku := sp_ku s; sp_kv := sp_kv s; sp_peru := sp_peru s; sp_perv := sp_perv s;
          sp_isou := sp_isou s; sp_isov := sp_isov s |}.

  (** BSplinePatch.h:122-146 get_u_lower_bound ... get_v_upper_bound. *)
  Definition sp_ulo (s : spatch) : res T := do d <- checked_degree (sp_degu s); get (sp_ku s) d.
  Definition sp_vlo (s : spatch) : res T := do d <- checked_degree (sp_degv s); get (sp_kv s) d.
  Definition sp_uhi (s : spatch) : res T := do d <- checked_degree (sp_degu s); get (sp_ku s) (zlen (sp_ku s) - d - 1).
  Definition sp_vhi (s : spatch) : res T := do d <- checked_degree (sp_degv s); get (sp_kv s) (zlen (sp_kv s) - d - 1).

  (** BSplinePatch.h:212-229 compute_iso_curve_u. *)
  Definition sp_iso_curve_u (s : spatch) (v : T) : res (bspline T P) :=
    do nu <- sp_nu s;
    do pts <- tabulate nu (fun i => do c <- get (sp_isov s) i; bs_evaluate c v);
    Ok {| bs_pts := pts; bs_knots := sp_ku s; bs_periodic := sp_peru s |}.

  (** BSplinePatch.h:231-247 compute_iso_curve_v. *)
  Definition sp_iso_curve_v (s : spatch) (u : T) : res (bspline T P) :=
    do nv <- sp_nv s;
    do pts <- tabulate nv (fun j => do c <- get (sp_isou s) j; bs_evaluate c u);
    Ok {| bs_pts := pts; bs_knots := sp_kv s; bs_periodic := sp_perv s |}.

  (** BSplinePatch.h:63-72 evaluate. *)
  Definition sp_evaluate (s : spatch) (u v : T) : res P :=
    if sp_degu s <? sp_degv s then
      do c <- sp_iso_curve_v s u; bs_evaluate c v
    else
      do c <- sp_iso_curve_u s v; bs_evaluate c u.

  (** BSplinePatch.h:74-96 evaluate_derivative_u, _v, evaluate_2nd_derivative_uu, _vv. *)
  Definition sp_evaluate_derivative_u (s : spatch) (u v : T) : res P :=
    do c <- sp_iso_curve_u s v; bs_evaluate_derivative c u.
  Definition sp_evaluate_derivative_v (s : spatch) (u v : T) : res P :=
    do c <- sp_iso_curve_v s u; bs_evaluate_derivative c v.
  Definition sp_evaluate_2nd_derivative_uu (s : spatch) (u v : T) : res P :=
    do c <- sp_iso_curve_u s v; bs_evaluate_2nd_derivative c u.
  Definition sp_evaluate_2nd_derivative_vv (s : spatch) (u v : T) : res P :=
    do c <- sp_iso_curve_v s u; bs_evaluate_2nd_derivative c v.

  (** BSplinePatch.h:30-50 ZeroPatch, for the template arguments (-1,-1). *)
  Definition sp_zero : res spatch :=
    do g <- alloc p0 1;
    sp_initialize (sp_make (-1) (-1) 0 0 g [s0; s1] [s0; s1] false false).

  (** BSplinePatch.h:249-280 compute_du_patch. *)
  Definition sp_du_patch (s : spatch) : res spatch :=
    do du <- checked_degree (sp_degu s);
    do dv <- checked_degree (sp_degv s);
    if du =? 0 then sp_zero
    else
      let nku := zlen (sp_ku s) in
      let nkv := zlen (sp_kv s) in
      let gp i j := do nv <- sp_nv s; grid_get (sp_grid s) nv i j in
      do g <- fill_grid (nku - du - 2) (nkv - dv - 1) (fun i j =>
        do a <- gp (i + 1) j; do b <- gp i j;
        do k1 <- get (sp_ku s) (i + du + 1); do k0 <- get (sp_ku s) (i + 1);
        pdivs (sofZ du *: (a - b))%P (k1 - k0)%S);
      do ku <- block (sp_ku s) 1 (nku - 2);
      sp_initialize (sp_make (-1) (-1) (du - 1) dv g ku (sp_kv s) (sp_peru s) (sp_perv s)).

  (** BSplinePatch.h:282-313 compute_dv_patch. *)
  Definition sp_dv_patch (s : spatch) : res spatch :=
    do du <- checked_degree (sp_degu s);
    do dv <- checked_degree (sp_degv s);
    if dv =? 0 then sp_zero
    else
      let nku := zlen (sp_ku s) in
      let nkv := zlen (sp_kv s) in
      let gp i j := do nv <- sp_nv s; grid_get (sp_grid s) nv i j in
      do g <- fill_grid (nku - du - 1) (nkv - dv - 2) (fun i j =>
        do a <- gp i (j + 1); do b <- gp i j;
        do k1 <- get (sp_kv s) (j + dv + 1); do k0 <- get (sp_kv s) (j + 1);
        pdivs (sofZ dv *: (a - b))%P (k1 - k0)%S);
      do kv <- block (sp_kv s) 1 (nkv - 2);
      sp_initialize (sp_make (-1) (-1) du (dv - 1) g (sp_ku s) kv (sp_peru s) (sp_perv s)).

  (** BSplinePatch.h:98-102 evaluate_2nd_derivative_uv, 315-318 compute_duv_patch. *)
  Definition sp_evaluate_2nd_derivative_uv (s : spatch) (u v : T) : res P :=
    do d <- sp_du_patch s; do d <- sp_dv_patch d; sp_evaluate d u v.

  (** BSplinePatch.h:397-463 split_u.  (Line 400 builds an exception object but does not throw it, so
      the in_domain test has no effect.) *)
  Definition sp_split_u (s : spatch) (u : T) : res (list spatch) :=
    do lo <- sp_ulo s; do hi <- sp_uhi s;
    if is_endpoint_1 lo hi u then Ok [s]
    else
      do nv <- sp_nv s;
      do split_isos <- tabulate nv (fun vj => do iso <- get (sp_isou s) vj; split_bspline iso u);
      do ref <- get split_isos 0;
      do r0 <- get ref 0; do r1 <- get ref 1;
      do g0 <- alloc p0 (zlen (bs_pts r0) * nv);
      do g1 <- alloc p0 (zlen (bs_pts r1) * nv);
      do '(g0, g1) <- for_up 0 nv (fun vj st =>
        let '(g0, g1) := st in
        do parts <- get split_isos vj;
        do c0 <- get parts 0;
        do g0 <- copy_rows (zlen (bs_pts c0)) (fun ui => linear_index nv ui vj) (bs_pts c0) g0;
        do c1 <- get parts 1;
        do g1 <- copy_rows (zlen (bs_pts c1)) (fun ui => linear_index nv ui vj) (bs_pts c1) g1;
        Ok (g0, g1)) (g0, g1);
      let make r g :=
        do dv <- checked_degree (sp_degv s);
        let '(du, dv) := if (sp_tu s <? 0) || (sp_tv s <? 0) then (bs_degree r, dv) else (sp_tu s, sp_tv s) in
        sp_initialize (sp_make (sp_tu s) (sp_tv s) du dv g (bs_knots r) (sp_kv s) false false) in
      do a <- make r0 g0;
      do b <- make r1 g1;
      Ok [a; b].

  (** BSplinePatch.h:465-534 split_v. *)
  Definition sp_split_v (s : spatch) (v : T) : res (list spatch) :=
    do lo <- sp_vlo s; do hi <- sp_vhi s;
    if negb (in_domain_1 lo hi v) then Throw invalid_setting_error
    else if is_endpoint_1 lo hi v then Ok [s]
    else
      do nu <- sp_nu s;
      do split_isos <- tabulate nu (fun ui => do iso <- get (sp_isov s) ui; split_bspline iso v);
      do ref <- get split_isos 0;
      do r0 <- get ref 0; do r1 <- get ref 1;
      do g0 <- alloc p0 (zlen (bs_pts r0) * nu);
      do g1 <- alloc p0 (zlen (bs_pts r1) * nu);
      do '(g0, g1) <- for_up 0 nu (fun ui st =>
        let '(g0, g1) := st in
        do parts <- get split_isos ui;
        do c0 <- get parts 0;
        do g0 <- copy_rows (zlen (bs_pts c0)) (fun vj => ui * zlen (bs_pts c0) + vj) (bs_pts c0) g0;
        do c1 <- get parts 1;
        do g1 <- copy_rows (zlen (bs_pts c1)) (fun vj => ui * zlen (bs_pts c1) + vj) (bs_pts c1) g1;
        Ok (g0, g1)) (g0, g1);
      let make r g :=
        do du <- checked_degree (sp_degu s);
        let '(du, dv) := if (sp_tu s <? 0) || (sp_tv s <? 0) then (du, bs_degree r) else (sp_tu s, sp_tv s) in
        sp_initialize (sp_make (sp_tu s) (sp_tv s) du dv g (sp_ku s) (bs_knots r) false false) in
      do a <- make r0 g0;
      do b <- make r1 g1;
      Ok [a; b].

  (** BSplinePatch.h:536-581 split. *)
  Definition sp_split (s : spatch) (u v : T) : res (list spatch) :=
    do ulo <- sp_ulo s; do uhi <- sp_uhi s; do vlo <- sp_vlo s; do vhi <- sp_vhi s;
    if negb (in_domain_1 ulo uhi u && in_domain_1 vlo vhi v) then Throw invalid_setting_error
    else
      let eu := is_endpoint_1 ulo uhi u in
      let ev := is_endpoint_1 vlo vhi v in
      if eu && ev then Ok [s]
      else if eu then sp_split_v s v
      else if ev then sp_split_u s u
      else
        do ps <- sp_split_u s u;
        do less <- get ps 0;
        do greater <- get ps 1;
        do l <- sp_split_v less v;
        do g <- sp_split_v greater v;
        do l0 <- get l 0; do l1 <- get l 1; do g0 <- get g 0; do g1 <- get g 1;
        Ok [l0; l1; g0; g1].

  (** BSplinePatch.h:583-619 subpatch. *)
  Definition sp_subpatch (s : spatch) (u_min u_max v_min v_max : T) : res spatch :=
    do ulo <- sp_ulo s; do uhi <- sp_uhi s; do vlo <- sp_vlo s; do vhi <- sp_vhi s;
    if (u_max <? u_min)%S then Throw invalid_setting_error
    else if negb (in_domain_1 ulo uhi u_min) || negb (in_domain_1 ulo uhi u_max) then Throw invalid_setting_error
    else if (v_max <? v_min)%S then Throw invalid_setting_error
    else if negb (in_domain_1 vlo vhi v_min) || negb (in_domain_1 vlo vhi v_max) then Throw invalid_setting_error
    else
      do a <- (if is_endpoint_1 ulo uhi u_min then Ok s else do l <- sp_split_u s u_min; get l 1);
      do b <- (if is_endpoint_1 ulo uhi u_max then Ok a else do l <- sp_split_u a u_max; get l 0);
      do c <- (if is_endpoint_1 vlo vhi v_min then Ok b else do l <- sp_split_v b v_min; get l 1);
      (if is_endpoint_1 vlo vhi v_max then Ok c else do l <- sp_split_v c v_max; get l 0).
End Patch.
Arguments bpatch : clear implicits.
Arguments spatch : clear implicits.
