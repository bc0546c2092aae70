(** Model of /repo/include/nanospline/RationalBezierPatch.h and NURBSPatch.h.

    A control point of the homogeneous patch is a row of length _dim+1 whose last entry is the weight. *)
From Coq Require Import QArith.
From Verif Require Import Monad Scalar ModelCurve ModelBezier ModelBSpline ModelRational ModelPatchBase ModelPatch.
Local Open Scope Z_scope.

Section PatchRational.
  Context {T : Type} {SO : ScalarOps T} {d : nat}.
  Local Open Scope scal_scope.
  Local Open Scope Z_scope.
  Notation pt := (vec T d).
  Notation hpt := (vec T (S d)).

  (** RationalBezierPatch.h:72-114 / NURBSPatch.h:74-113: second derivative in one direction from the
      homogeneous value [p], first derivative [a1] and second derivative [a2]; [su] computes the first
      derivative of the quotient from S = p.head/w.  The zero point is returned for w <= epsilon. *)
  Definition hp_2nd (p a1 a2 : hpt) (su : pt -> res pt) : res pt :=
    let w := vlast d p in
    if (w <=? seps)%S then Ok p0
    else
      do S <- pdivs (vhead d p) w;
      do Su <- su S;
      pdivs (vhead d a2 - (sofZ 2 * vlast d a1)%S *: Su - vlast d a2 *: S)%P w.

  (** RationalBezierPatch.h:116-135 / NURBSPatch.h:115-137: the mixed derivative.  S is divided by w before w
      is tested. *)
  Definition hp_mixed (p au av auv : hpt) (su sv : pt -> res pt) : res pt :=
    do S <- pdivs (vhead d p) (vlast d p);
    let w := vlast d p in
    if (w <=? seps)%S then Ok p0
    else
      do Su <- su S;
      do Sv <- sv S;
      pdivs (vhead d auv - vlast d auv *: S - vlast d au *: Sv - vlast d av *: Su)%P w.

  (** * RationalBezierPatch *)

  (** RationalBezierPatch.h:413-414 m_weights, m_homogeneous; PatchBase.h:443-449 m_degree_u, m_degree_v,
      m_control_grid, m_periodic_u, m_periodic_v; the template arguments _degree_u, _degree_v. *)
  Record rbpatch := {
    rp_tu : Z; rp_tv : Z;
    rp_degu : Z; rp_degv : Z;
    rp_grid : list pt;
    rp_weights : list T;
    rp_peru : bool; rp_perv : bool;
    rp_hom : bpatch hpt;
  }.

  (** RationalBezierPatch.h:29-33: the constructor. *)
  Definition rp_new (tu tv : Z) : rbpatch :=
    {| rp_tu := tu; rp_tv := tv; rp_degu := tu; rp_degv := tv; rp_grid := []; rp_weights := [];
       rp_peru := false; rp_perv := false; rp_hom := bp_new tu tv |}.

  (** PatchBase.h:70-72 set_degree_u/v, 97-113 set_control_grid, 117-118 set_periodic_u/v;
      RationalBezierPatch.h:221-234 set_weights. *)
  Definition rp_set_degrees (s : rbpatch) (du dv : Z) : rbpatch :=
    {| rp_tu := rp_tu s; rp_tv := rp_tv s; rp_degu := du; rp_degv := dv; rp_grid := rp_grid s;
       rp_weights := rp_weights s; rp_peru := rp_peru s; rp_perv := rp_perv s; rp_hom := rp_hom s |}.
  Definition rp_set_grid (s : rbpatch) (g : list pt) : rbpatch :=
    {| rp_tu := rp_tu s; rp_tv := rp_tv s; rp_degu := rp_degu s; rp_degv := rp_degv s; rp_grid := g;
       rp_weights := rp_weights s; rp_peru := rp_peru s; rp_perv := rp_perv s; rp_hom := rp_hom s |}.
  Definition rp_set_weights (s : rbpatch) (ws : list T) : rbpatch :=
    {| rp_tu := rp_tu s; rp_tv := rp_tv s; rp_degu := rp_degu s; rp_degv := rp_degv s; rp_grid := rp_grid s;
       rp_weights := ws; rp_peru := rp_peru s; rp_perv := rp_perv s; rp_hom := rp_hom s |}.
  Definition rp_set_periodic (s : rbpatch) (pu pv : bool) : rbpatch :=
    {| rp_tu := rp_tu s; rp_tv := rp_tv s; rp_degu := rp_degu s; rp_degv := rp_degv s; rp_grid := rp_grid s;
       rp_weights := rp_weights s; rp_peru := pu; rp_perv := pv; rp_hom := rp_hom s |}.
  Definition rp_set_hom (s : rbpatch) (h : bpatch hpt) : rbpatch :=
    {| rp_tu := rp_tu s; rp_tv := rp_tv s; rp_degu := rp_degu s; rp_degv := rp_degv s; rp_grid := rp_grid s;
       rp_weights := rp_weights s; rp_peru := rp_peru s; rp_perv := rp_perv s; rp_hom := h |}.

  (** RationalBezierPatch.h:137-151 initialize. *)
  Definition rp_initialize (s : rbpatch) : res rbpatch :=
    do ctrl_pts <- homogenize (rp_grid s) (rp_weights s);
    do du <- checked_degree (rp_degu s);
    do dv <- checked_degree (rp_degv s);
    do h <- bp_initialize (bp_set_periodic (bp_set_degrees (bp_set_grid (rp_hom s) ctrl_pts) du dv)
                             (rp_peru s) (rp_perv s));
    Ok (rp_set_hom s h).

  (** RationalBezierPatch.h:395-410 validate_initialization. *)
  Definition rp_validate (s : rbpatch) : res unit :=
    let h := rp_hom s in
    if negb (zlen (bp_grid h) =? zlen (rp_grid s)) || negb (zlen (bp_grid h) =? zlen (rp_weights s))
    then Throw invalid_setting_error
    else
      do du <- checked_degree (rp_degu s);
      do dv <- checked_degree (rp_degv s);
      if (du <? 0) || (dv <? 0) then Throw invalid_setting_error
      else if negb (Bool.eqb (bp_peru h) (rp_peru s)) then Throw invalid_setting_error
      else if negb (Bool.eqb (bp_perv h) (rp_perv s)) then Throw invalid_setting_error
      else Ok tt.

  (** RationalBezierPatch.h:47-52 evaluate. *)
  Definition rp_evaluate (s : rbpatch) (u v : T) : res pt :=
    do _ <- rp_validate s;
    do p <- bp_evaluate (rp_hom s) u v;
    h_point p.

  (** RationalBezierPatch.h:54-70 evaluate_derivative_u, _v. *)
  Definition rp_evaluate_derivative_u (s : rbpatch) (u v : T) : res pt :=
    do _ <- rp_validate s;
    do p <- bp_evaluate (rp_hom s) u v;
    do a <- bp_evaluate_derivative_u (rp_hom s) u v;
    h_derivative p a.
  Definition rp_evaluate_derivative_v (s : rbpatch) (u v : T) : res pt :=
    do _ <- rp_validate s;
    do p <- bp_evaluate (rp_hom s) u v;
    do a <- bp_evaluate_derivative_v (rp_hom s) u v;
    h_derivative p a.

  (** RationalBezierPatch.h:72-135 evaluate_2nd_derivative_uu, _vv, _uv. *)
  Definition rp_evaluate_2nd_derivative_uu (s : rbpatch) (u v : T) : res pt :=
    do _ <- rp_validate s;
    do p <- bp_evaluate (rp_hom s) u v;
    do au <- bp_evaluate_derivative_u (rp_hom s) u v;
    do auu <- bp_evaluate_2nd_derivative_uu (rp_hom s) u v;
    hp_2nd p au auu (fun _ => rp_evaluate_derivative_u s u v).
  Definition rp_evaluate_2nd_derivative_vv (s : rbpatch) (u v : T) : res pt :=
    do _ <- rp_validate s;
    do p <- bp_evaluate (rp_hom s) u v;
    do av <- bp_evaluate_derivative_v (rp_hom s) u v;
    do avv <- bp_evaluate_2nd_derivative_vv (rp_hom s) u v;
    hp_2nd p av avv (fun _ => rp_evaluate_derivative_v s u v).
  Definition rp_evaluate_2nd_derivative_uv (s : rbpatch) (u v : T) : res pt :=
    do _ <- rp_validate s;
    do p <- bp_evaluate (rp_hom s) u v;
    do au <- bp_evaluate_derivative_u (rp_hom s) u v;
    do av <- bp_evaluate_derivative_v (rp_hom s) u v;
    do auv <- bp_evaluate_2nd_derivative_uv (rp_hom s) u v;
    hp_mixed p au av auv (fun _ => rp_evaluate_derivative_u s u v) (fun _ => rp_evaluate_derivative_v s u v).

  (** RationalBezierPatch.h:174-181 set_control_point (linear indices use the sizes of m_homogeneous, 39-40). *)
  Definition rp_set_control_point (s : rbpatch) (i j : Z) (p : pt) : res rbpatch :=
    do nv <- bp_nv (rp_hom s);
    do g <- set (rp_grid s) (linear_index nv i j) p;
    do q <- grid_get (bp_grid (rp_hom s)) nv i j;
    do w <- get (rp_weights s) (linear_index nv i j);
    do h <- bp_set_control_point (rp_hom s) i j (vsnoc d (w *: p)%P (vlast d q));
    Ok (rp_set_hom (rp_set_grid s g) h).

  (** RationalBezierPatch.h:188-197 set_weight. *)
  Definition rp_set_weight (s : rbpatch) (i j : Z) (val : T) : res rbpatch :=
    do nv <- bp_nv (rp_hom s);
    do ws <- set (rp_weights s) (linear_index nv i j) val;
    do q <- grid_get (bp_grid (rp_hom s)) nv i j;
    do p <- grid_get (rp_grid s) nv i j;
    do h <- bp_set_control_point (rp_hom s) i j (vsnoc d (val *: p)%P val);
    Ok (rp_set_hom (rp_set_weights s ws) h).

  (** RationalBezierPatch.h:153-163 set_homogeneous, called on a patch [s] with the template arguments of [h]
      (the degrees of [s] are not touched). *)
  Definition rp_set_homogeneous (s : rbpatch) (h : bpatch hpt) : res rbpatch :=
    do g <- dehomogenize (bp_grid h);
    let s' := rp_set_hom (rp_set_periodic (rp_set_weights (rp_set_grid s g) (map (vlast d) (bp_grid h)))
                            (bp_peru h) (bp_perv h)) h in
    do _ <- rp_validate s';
    Ok s'.

  (** A part returned by split_u etc.: [results.emplace_back(); results.back().set_homogeneous(c)]. *)
  Definition rp_of_part (s : rbpatch) (c : bpatch hpt) : res rbpatch :=
    rp_set_homogeneous (rp_new (rp_tu s) (rp_tv s)) c.

  (** RationalBezierPatch.h:252-285 split_u, split_v, split. *)
  Definition rp_split_u (s : rbpatch) (u : T) : res (list rbpatch) :=
    do parts <- bp_split_u (rp_hom s) u; mapM (rp_of_part s) parts.
  Definition rp_split_v (s : rbpatch) (v : T) : res (list rbpatch) :=
    do parts <- bp_split_v (rp_hom s) v; mapM (rp_of_part s) parts.
  Definition rp_split (s : rbpatch) (u v : T) : res (list rbpatch) :=
    do parts <- bp_split (rp_hom s) u v; mapM (rp_of_part s) parts.

  (** RationalBezierPatch.h:286-293 subpatch. *)
  Definition rp_subpatch (s : rbpatch) (u_min u_max v_min v_max : T) : res rbpatch :=
    do c <- bp_subpatch (rp_hom s) u_min u_max v_min v_max;
    rp_of_part s c.

  (** RationalBezierPatch.h:236-250 compute_iso_curve_u, _v. *)
  Definition rp_iso_curve_u (s : rbpatch) (v : T) : res (rbezier T d) :=
    do c <- bp_iso_curve_u (rp_hom s) v; rb_set_homogeneous c.
  Definition rp_iso_curve_v (s : rbpatch) (u : T) : res (rbezier T d) :=
    do c <- bp_iso_curve_v (rp_hom s) u; rb_set_homogeneous c.

  (** * NURBSPatch *)

  (** BSplinePatch.h:178, 181 set_knot_u/v, 191-213 set_knots_u/v; PatchBase.h setters as above.  The cached
      iso curves are not touched. *)
  Definition sp_with (h : spatch T hpt) (du dv : Z) (g : list hpt) (ku kv : list T) (pu pv : bool) : spatch T hpt :=
    {| sp_tu := sp_tu h; sp_tv := sp_tv h; sp_degu := du; sp_degv := dv; sp_grid := g; sp_ku := ku; sp_kv := kv;
       sp_peru := pu; sp_perv := pv; sp_isou := sp_isou h; sp_isov := sp_isov h |}.

  (** NURBSPatch.h:436-439 m_weights, m_homogeneous, m_knots_u, m_knots_v and the members of PatchBase. *)
  Record nupatch := {
    np_tu : Z; np_tv : Z;
    np_degu : Z; np_degv : Z;
    np_grid : list pt;
    np_weights : list T;
    np_ku : list T; np_kv : list T;
    np_peru : bool; np_perv : bool;
    np_hom : spatch T hpt;
  }.

  (** A default constructed patch (NURBSPatch.h:31-35) after set_degree_u/v, set_control_grid, set_weights
      (213-224), set_knots_u/v (230-254) and set_periodic_u/v, before initialize. *)
  Definition np_make (tu tv du dv : Z) (g : list pt) (ws ku kv : list T) (pu pv : bool) : nupatch :=
    {| np_tu := tu; np_tv := tv; np_degu := du; np_degv := dv; np_grid := g; np_weights := ws; np_ku := ku; np_kv := kv;
       np_peru := pu; np_perv := pv; np_hom := sp_make tu tv tu tv [] [] [] false false |}.

  (** NURBSPatch.h:139-159 initialize. *)
  Definition np_initialize (s : nupatch) : res nupatch :=
    if negb (zlen (np_weights s) =? zlen (np_grid s)) then Throw invalid_setting_error
    else
      do ctrl_pts <- homogenize (np_grid s) (np_weights s);
      do du <- checked_degree (np_degu s);
      do dv <- checked_degree (np_degv s);
      do h <- sp_initialize (sp_with (np_hom s) du dv ctrl_pts (np_ku s) (np_kv s) (np_peru s) (np_perv s));
      Ok {| np_tu := np_tu s; np_tv := np_tv s; np_degu := np_degu s; np_degv := np_degv s; np_grid := np_grid s;
            np_weights := np_weights s; np_ku := np_ku s; np_kv := np_kv s; np_peru := np_peru s;
            np_perv := np_perv s; np_hom := h |}.

  (** NURBSPatch.h:418-433 validate_initialization. *)
  Definition np_validate (s : nupatch) : res unit :=
    let h := np_hom s in
    if negb (zlen (sp_grid h) =? zlen (np_grid s)) || negb (zlen (sp_grid h) =? zlen (np_weights s))
    then Throw invalid_setting_error
    else
      do du <- checked_degree (np_degu s);
      do dv <- checked_degree (np_degv s);
      if (du <? 0) || (dv <? 0) then Throw invalid_setting_error
      else if negb (Bool.eqb (sp_peru h) (np_peru s)) then Throw invalid_setting_error
      else if negb (Bool.eqb (sp_perv h) (np_perv s)) then Throw invalid_setting_error
      else Ok tt.

  (** NURBSPatch.h:49-54 evaluate. *)
  Definition np_evaluate (s : nupatch) (u v : T) : res pt :=
    do _ <- np_validate s;
    do p <- sp_evaluate (np_hom s) u v;
    h_point p.

  (** NURBSPatch.h:56-72 evaluate_derivative_u, _v. *)
  Definition np_evaluate_derivative_u (s : nupatch) (u v : T) : res pt :=
    do _ <- np_validate s;
    do p <- sp_evaluate (np_hom s) u v;
    do a <- sp_evaluate_derivative_u (np_hom s) u v;
    h_derivative p a.
  Definition np_evaluate_derivative_v (s : nupatch) (u v : T) : res pt :=
    do _ <- np_validate s;
    do p <- sp_evaluate (np_hom s) u v;
    do a <- sp_evaluate_derivative_v (np_hom s) u v;
    h_derivative p a.

  (** NURBSPatch.h:89, 111, 132-133: [(du.head - S * wu) / w]. *)
  Definition np_first (p a : hpt) (S : pt) : res pt := pdivs (vhead d a - vlast d a *: S)%P (vlast d p).

  (** NURBSPatch.h:74-137 evaluate_2nd_derivative_uu, _vv, _uv. *)
  Definition np_evaluate_2nd_derivative_uu (s : nupatch) (u v : T) : res pt :=
    do _ <- np_validate s;
    do p <- sp_evaluate (np_hom s) u v;
    do au <- sp_evaluate_derivative_u (np_hom s) u v;
    do auu <- sp_evaluate_2nd_derivative_uu (np_hom s) u v;
    hp_2nd p au auu (np_first p au).
  Definition np_evaluate_2nd_derivative_vv (s : nupatch) (u v : T) : res pt :=
    do _ <- np_validate s;
    do p <- sp_evaluate (np_hom s) u v;
    do av <- sp_evaluate_derivative_v (np_hom s) u v;
    do avv <- sp_evaluate_2nd_derivative_vv (np_hom s) u v;
    hp_2nd p av avv (np_first p av).
  Definition np_evaluate_2nd_derivative_uv (s : nupatch) (u v : T) : res pt :=
    do _ <- np_validate s;
    do p <- sp_evaluate (np_hom s) u v;
    do au <- sp_evaluate_derivative_u (np_hom s) u v;
    do av <- sp_evaluate_derivative_v (np_hom s) u v;
    do auv <- sp_evaluate_2nd_derivative_uv (np_hom s) u v;
    hp_mixed p au av auv (np_first p au) (np_first p av).

  (** NURBSPatch.h:170-177 set_control_point. *)
  Definition np_set_control_point (s : nupatch) (i j : Z) (p : pt) : res nupatch :=
    do nv <- sp_nv (np_hom s);
    do g <- set (np_grid s) (linear_index nv i j) p;
    do q <- grid_get (sp_grid (np_hom s)) nv i j;
    do w <- get (np_weights s) (linear_index nv i j);
    do h <- sp_set_control_point (np_hom s) i j (vsnoc d (w *: p)%P (vlast d q));
    Ok {| np_tu := np_tu s; np_tv := np_tv s; np_degu := np_degu s; np_degv := np_degv s; np_grid := g;
          np_weights := np_weights s; np_ku := np_ku s; np_kv := np_kv s; np_peru := np_peru s;
          np_perv := np_perv s; np_hom := h |}.

  (** NURBSPatch.h:185-193 set_weight. *)
  Definition np_set_weight (s : nupatch) (i j : Z) (val : T) : res nupatch :=
    do nv <- sp_nv (np_hom s);
    do ws <- set (np_weights s) (linear_index nv i j) val;
    do q <- grid_get (sp_grid (np_hom s)) nv i j;
    do p <- grid_get (np_grid s) nv i j;
    do h <- sp_set_control_point (np_hom s) i j (vsnoc d (val *: p)%P val);
    Ok {| np_tu := np_tu s; np_tv := np_tv s; np_degu := np_degu s; np_degv := np_degv s; np_grid := np_grid s;
          np_weights := ws; np_ku := np_ku s; np_kv := np_kv s; np_peru := np_peru s;
          np_perv := np_perv s; np_hom := h |}.

  (** NURBSPatch.h:197-208 set_knot_u, set_knot_v. *)
  Definition np_set_knot_u (s : nupatch) (i : Z) (val : T) : res nupatch :=
    do ku <- set (np_ku s) i val;
    let h := np_hom s in
    do hku <- set (sp_ku h) i val;
    Ok {| np_tu := np_tu s; np_tv := np_tv s; np_degu := np_degu s; np_degv := np_degv s; np_grid := np_grid s;
          np_weights := np_weights s; np_ku := ku; np_kv := np_kv s; np_peru := np_peru s;
          np_perv := np_perv s;
          np_hom := sp_with h (sp_degu h) (sp_degv h) (sp_grid h) hku (sp_kv h) (sp_peru h) (sp_perv h) |}.
  Definition np_set_knot_v (s : nupatch) (i : Z) (val : T) : res nupatch :=
    do kv <- set (np_kv s) i val;
    let h := np_hom s in
    do hkv <- set (sp_kv h) i val;
    Ok {| np_tu := np_tu s; np_tv := np_tv s; np_degu := np_degu s; np_degv := np_degv s; np_grid := np_grid s;
          np_weights := np_weights s; np_ku := np_ku s; np_kv := kv; np_peru := np_peru s;
          np_perv := np_perv s;
          np_hom := sp_with h (sp_degu h) (sp_degv h) (sp_grid h) (sp_ku h) hkv (sp_peru h) (sp_perv h) |}.

  (** NURBSPatch.h:271-285 set_homogeneous, on a patch with template arguments [tu], [tv] (those of [h]). *)
  Definition np_set_homogeneous (tu tv : Z) (h : spatch T hpt) : res nupatch :=
    do g <- dehomogenize (sp_grid h);
    do du <- checked_degree (sp_degu h);
    do dv <- checked_degree (sp_degv h);
    let s := {| np_tu := tu; np_tv := tv; np_degu := du; np_degv := dv; np_grid := g;
                np_weights := map (vlast d) (sp_grid h); np_ku := sp_ku h; np_kv := sp_kv h;
                np_peru := sp_peru h; np_perv := sp_perv h; np_hom := h |} in
    do _ <- np_validate s;
    Ok s.

  (** NURBSPatch.h:287-329 split_u, split_v, split, subpatch. *)
  Definition np_split_u (s : nupatch) (u : T) : res (list nupatch) :=
    do parts <- sp_split_u (np_hom s) u; mapM (np_set_homogeneous (np_tu s) (np_tv s)) parts.
  Definition np_split_v (s : nupatch) (v : T) : res (list nupatch) :=
    do parts <- sp_split_v (np_hom s) v; mapM (np_set_homogeneous (np_tu s) (np_tv s)) parts.
  Definition np_split (s : nupatch) (u v : T) : res (list nupatch) :=
    do parts <- sp_split (np_hom s) u v; mapM (np_set_homogeneous (np_tu s) (np_tv s)) parts.
  Definition np_subpatch (s : nupatch) (u_min u_max v_min v_max : T) : res nupatch :=
    do c <- sp_subpatch (np_hom s) u_min u_max v_min v_max;
    np_set_homogeneous (np_tu s) (np_tv s) c.

  (** NURBSPatch.h:253-267 compute_iso_curve_u, _v. *)
  Definition np_iso_curve_u (s : nupatch) (v : T) : res (nurbs T d) :=
    do c <- sp_iso_curve_u (np_hom s) v; nb_set_homogeneous c.
  Definition np_iso_curve_v (s : nupatch) (u : T) : res (nurbs T d) :=
    do c <- sp_iso_curve_v (np_hom s) u; nb_set_homogeneous c.
End PatchRational.
Arguments rbpatch T d : clear implicits.
Arguments nupatch T d : clear implicits.
