(** Model of least squares fitting and deformation: form_least_squares_matrix, fit and deform of
    /repo/include/nanospline/Bezier.h, BSpline.h, BezierPatch.h and BSplinePatch.h. *)
From Verif Require Import Monad Scalar ModelCurve ModelBezier ModelBSpline ModelPatchBase ModelPatch.
Local Open Scope Z_scope.

Section Fit.
  Context {T : Type} {SO : ScalarOps T} {d : nat}.
  Notation P1 := (vec T 1).
  Notation Pd := (vec T d).
  Notation ops1 := (vec_ops (T := T) 1).
  Notation opsd := (vec_ops (T := T) d).

  (** [least_squares_matrix.bdcSvd(ComputeThinU | ComputeThinV).solve(values)] (Bezier.h:371-372, BSpline.h:468-469,
      BezierPatch.h:637-638, BSplinePatch.h:765-766) is Eigen's: a parameter.  Matrices are lists of rows. *)
  Context (solve : list (list T) -> list Pd -> list Pd).

  (** Bezier.h:335-356, BSpline.h:425-449, BezierPatch.h:592-621, BSplinePatch.h:712-743: the loops that
      build the matrix.  [n] is the number of control points, [order] the indices of the basis functions in the
      order in which the loops reach them, [eval] the evaluation of the basis function object with the given
      control points.  (For patches the object is initialised again before every evaluation instead of once for
      every basis function; initialize does not change the control grid.) *)
  Definition lsq_column {A} (eval : list P1 -> A -> res P1) (params : list A) (j : Z)
      (st : list P1 * list (list T)) : res (list P1 * list (list T)) :=
    let '(pts, mat) := st in
    do pts <- set pts j (s1, tt);
    do mat <- for_up 0 (zlen params) (fun i mat =>
      do t <- get params i;
      do x <- eval pts t;
      do row <- get mat i;
      do row <- set row j (fst x);
      set mat i row) mat;
    do pts <- set pts j (s0, tt);
    Ok (pts, mat).

  Fixpoint lsq_columns {A} (eval : list P1 -> A -> res P1) (params : list A) (order : list Z)
      (st : list P1 * list (list T)) : res (list P1 * list (list T)) :=
    match order with
    | [] => Ok st
    | j :: order => do st <- lsq_column eval params j st; lsq_columns eval params order st
    end.

  Definition lsq_matrix {A} (n : Z) (order : list Z) (eval : list P1 -> A -> res P1) (params : list A)
      : res (list (list T)) :=
    do pts <- alloc ((s0, tt) : P1) n;
    do row <- alloc s0 n;
    do mat <- alloc row (zlen params);
    do '(_, mat) <- lsq_columns eval params order (pts, mat);
    Ok mat.

  (** The indices reached by [for j < n] and by [for j < nu, for k < nv] with index j * nv + k
      (BezierPatch.h:606-608 through PatchBase.h get_linear_index, BSplinePatch.h:728-730). *)
  Definition zrange (n : Z) : list Z := map Z.of_nat (seq 0 (Z.to_nat n)).
  Definition grid_order (nu nv : Z) : list Z :=
    flat_map (fun j => map (fun k => linear_index nv j k) (zrange nv)) (zrange nu).

  (** [m_control_points + changes_in_control_points] (Bezier.h:384, BSpline.h:485, BezierPatch.h:651,
      BSplinePatch.h:786): Eigen asserts that the sizes agree. *)
  Fixpoint add_rows (a b : list Pd) : res (list Pd) :=
    match a, b with
    | [], [] => Ok []
    | x :: a, y :: b => do l <- add_rows a b; Ok (padd (PointOps := opsd) x y :: l)
    | _, _ => Undef
    end.

  (** Bezier.h:331-357 form_least_squares_matrix; [deg] is the template argument _degree (-1 means dynamic), the
      basis function has the class selected by it. *)
  Definition bz_lsq_matrix (deg : Z) (params : list T) : res (list (list T)) :=
    lsq_matrix (deg + 1) (zrange (deg + 1))
      (fun pts t => bzt_evaluate (V := ops1) deg (mk_bezier pts) t) params.

  (** Bezier.h:359-377 fit.  (The column counts are right by typing.  The result is assigned to a matrix of
      _degree + 1 rows.) *)
  Definition bz_fit (deg : Z) (params : list T) (values : list Pd) : res (bezier Pd) :=
    do _ <- assert_ (zlen params =? zlen values);
    do m <- bz_lsq_matrix deg params;
    let pts := solve m values in
    do _ <- assert_ (zlen pts =? deg + 1);
    Ok (mk_bezier pts).

  (** Bezier.h:379-386 deform. *)
  Definition bz_deform (deg : Z) (c : bezier Pd) (params : list T) (changes : list Pd)
      : res (bezier Pd) :=
    do f <- bz_fit deg params changes;
    do pts <- add_rows (bz_pts c) (bz_pts f);
    Ok {| bz_pts := pts; bz_periodic := bz_periodic c |}.

  (** BSpline.h:420-450 form_least_squares_matrix. *)
  Definition bs_lsq_matrix (deg num : Z) (knots params : list T) : res (list (list T)) :=
    do _ <- assert_ (zlen knots =? num + deg + 1);
    lsq_matrix num (zrange num)
      (fun pts t => bs_evaluate (V := ops1) (mk_bspline pts knots) t) params.

  (** BSpline.h:452-475 fit. *)
  Definition bs_fit (deg : Z) (params : list T) (values : list Pd) (num : Z) (knots : list T)
      : res (bspline T Pd) :=
    do _ <- assert_ (zlen params =? zlen values);
    do m <- bs_lsq_matrix deg num knots params;
    Ok (mk_bspline (solve m values) knots).

  (** BSpline.h:478-487 deform. *)
  Definition bs_deform (deg : Z) (c : bspline T Pd) (params : list T) (changes : list Pd)
      : res (bspline T Pd) :=
    do f <- bs_fit deg params changes (zlen (bs_pts c)) (bs_knots c);
    do pts <- add_rows (bs_pts c) (bs_pts f);
    Ok {| bs_pts := pts; bs_knots := bs_knots c; bs_periodic := bs_periodic c |}.

  (** BezierPatch.h:585-622 form_least_squares_matrix; [tu], [tv] are the template arguments.  (get_linear_index
      of the default constructed patch asks for its num_control_points_v.) *)
  Definition bp_lsq_matrix (tu tv : Z) (params : list (T * T)) : res (list (list T)) :=
    let nu := tu + 1 in
    let nv := tv + 1 in
    lsq_matrix (nu * nv) (grid_order nu nv)
      (fun g uv => do s <- bp_initialize (bp_set_grid (bp_new tu tv) g);
                   bp_evaluate (V := ops1) s (fst uv) (snd uv)) params.

  (** BezierPatch.h:624-644 fit. *)
  Definition bp_fit (tu tv : Z) (params : list (T * T)) (values : list Pd) : res (bpatch Pd) :=
    do _ <- assert_ (zlen params =? zlen values);
    do m <- bp_lsq_matrix tu tv params;
    let g := solve m values in
    do _ <- assert_ (zlen g =? (tu + 1) * (tv + 1));
    bp_initialize (bp_set_grid (bp_new tu tv) g).

  (** BezierPatch.h:646-654 deform. *)
  Definition bp_deform (s : bpatch Pd) (params : list (T * T)) (changes : list Pd)
      : res (bpatch Pd) :=
    do f <- bp_fit (bp_tu s) (bp_tv s) params changes;
    do g <- add_rows (bp_grid s) (bp_grid f);
    bp_initialize (bp_set_grid s g).

  (** BSplinePatch.h:705-744 form_least_squares_matrix. *)
  Definition sp_lsq_matrix (tu tv nu nv : Z) (ku kv : list T) (params : list (T * T)) : res (list (list T)) :=
    lsq_matrix (nu * nv) (grid_order nu nv)
      (fun g uv => do s <- sp_initialize (sp_make tu tv tu tv g ku kv false false);
                   sp_evaluate (V := ops1) s (fst uv) (snd uv)) params.

  (** BSplinePatch.h:746-774 fit. *)
  Definition sp_fit (tu tv : Z) (params : list (T * T)) (values : list Pd) (nu nv : Z) (ku kv : list T)
      : res (spatch T Pd) :=
    do _ <- assert_ (zlen params =? zlen values);
    do m <- sp_lsq_matrix tu tv nu nv ku kv params;
    sp_initialize (sp_make tu tv tu tv (solve m values) ku kv false false).

  (** BSplinePatch.h:776-789 deform. *)
  Definition sp_deform (s : spatch T Pd) (params : list (T * T)) (changes : list Pd) : res (spatch T Pd) :=
    do nu <- sp_nu s;
    do nv <- sp_nv s;
    do f <- sp_fit (sp_tu s) (sp_tv s) params changes nu nv (sp_ku s) (sp_kv s);
    do g <- add_rows (sp_grid s) (sp_grid f);
    sp_initialize
      {| sp_tu := sp_tu s; sp_tv := sp_tv s; sp_degu := sp_degu s; sp_degv := sp_degv s; sp_grid := g;
         sp_ku := sp_ku s; sp_kv := sp_kv s; sp_peru := sp_peru s; sp_perv := sp_perv s;
         sp_isou := sp_isou s; sp_isov := sp_isov s |}.
End Fit.
