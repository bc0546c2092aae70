(** Model of /repo/include/nanospline/RationalBezier.h and NURBS.h, the rational parts of split.h and
    conversion.h.

    A point of the homogeneous curve is an [Eigen::Matrix<Scalar,1,_dim+1>] whose last coordinate is the
    weight: [vec T (S d)].  Simplification: the homogeneous Bezier curve is an object of the generic
    class (for degree 0..3 with [_generic = false] it is a specialised class; C05 relates the two). *)
From Coq Require Import QArith.
From Verif Require Import Monad Scalar ModelCurve ModelBezier ModelBSpline.
Local Open Scope Z_scope.

Section Homogeneous.
  Context {T : Type} {SO : ScalarOps T}.

  (** [p.template head<_dim>()] / [leftCols<_dim>()] (RationalBezier.h:42, 243). *)
  Fixpoint vhead (d : nat) : vec T (S d) -> vec T d :=
    match d return vec T (S d) -> vec T d with
    | O => fun _ => tt
    | S d' => fun a => (fst a, vhead d' (snd a))
    end.

  (** [p[_dim]] / [rightCols<1>()] (RationalBezier.h:42, 241). *)
  Fixpoint vlast (d : nat) : vec T (S d) -> T :=
    match d return vec T (S d) -> T with
    | O => fun a => fst a
    | S d' => fun a => vlast d' (snd a)
    end.

  (** A row whose head is [v] and whose last entry is [w] (RationalBezier.h:92-93, 213-216). *)
  Fixpoint vsnoc (d : nat) : vec T d -> T -> vec T (S d) :=
    match d return vec T d -> T -> vec T (S d) with
    | O => fun _ w => (w, tt)
    | S d' => fun a w => (fst a, vsnoc d' (snd a) w)
    end.
End Homogeneous.

Section Rational.
  Context {T : Type} {SO : ScalarOps T} {d : nat}.
  Local Open Scope scal_scope.
  Local Open Scope Z_scope.
  Notation pt := (vec T d).
  Notation hpt := (vec T (S d)).

  (** RationalBezier.h:42 / NURBS.h:55: [p.head<_dim>() / p[_dim]]. *)
  Definition h_point (p : hpt) : res pt := pdivs (vhead d p) (vlast d p).

  (** RationalBezier.h:56 / NURBS.h:69: the quotient rule. *)
  Definition h_derivative (p dp : hpt) : res pt :=
    do q <- pdivs (vlast d dp *: vhead d p)%P (vlast d p);
    pdivs (vhead d dp - q)%P (vlast d p).

  (** RationalBezier.h:66-70 / NURBS.h:79-83. *)
  Definition h_2nd_derivative (p0 d1 d2 : hpt) : res pt :=
    do c0 <- h_point p0;
    do c1 <- h_derivative p0 d1;
    pdivs (vhead d d2 - vlast d d2 *: c0 - (sofZ 2 * vlast d d1)%S *: c1)%P (vlast d p0).

  (** RationalBezier.h:213-216 / NURBS.h:294-298: the homogeneous control points; rows of different
      number are an Eigen assertion failure. *)
  Definition homogenize (pts : list pt) (ws : list T) : res (list hpt) :=
    if zlen pts =? zlen ws
    then Ok (map (fun x => vsnoc d (snd x *: fst x)%P (snd x)) (combine pts ws))
    else Undef.

  (** RationalBezier.h:242-243 / NURBS.h:325-327: dividing the left columns by the last one. *)
  Definition dehomogenize (pts : list hpt) : res (list pt) := mapM h_point pts.

  (** * RationalBezier *)

  (** RationalBezier.h:275-276 m_bezier_homogeneous, m_weights; BezierBase.h:119 m_control_points;
      CurveBase.h:216 m_periodic. *)
  Record rbezier := {
    rb_pts : list pt;
    rb_weights : list T;
    rb_hom : bezier hpt;
    rb_periodic : bool;
  }.

  (** A default constructed curve. *)
  Definition rb_empty : rbezier :=
    {| rb_pts := []; rb_weights := []; rb_hom := mk_bezier []; rb_periodic := false |}.

  (** BezierBase.h:96-107 set_control_points. *)
  Definition rb_set_control_points (c : rbezier) (pts : list pt) : rbezier :=
    {| rb_pts := pts; rb_weights := rb_weights c; rb_hom := rb_hom c; rb_periodic := rb_periodic c |}.
  (** RationalBezier.h:224-234 set_weights. *)
  Definition rb_set_weights (c : rbezier) (ws : list T) : rbezier :=
    {| rb_pts := rb_pts c; rb_weights := ws; rb_hom := rb_hom c; rb_periodic := rb_periodic c |}.
  (** CurveBase.h:39 set_periodic. *)
  Definition rb_set_periodic (c : rbezier) (b : bool) : rbezier :=
    {| rb_pts := rb_pts c; rb_weights := rb_weights c; rb_hom := rb_hom c; rb_periodic := b |}.

  (** RationalBezier.h:211-220 initialize. *)
  Definition rb_initialize (c : rbezier) : res rbezier :=
    do ctrl_pts <- homogenize (rb_pts c) (rb_weights c);
    Ok {| rb_pts := rb_pts c; rb_weights := rb_weights c;
          rb_hom := {| bz_pts := ctrl_pts; bz_periodic := rb_periodic c |};
          rb_periodic := rb_periodic c |}.

  (** RationalBezier.h:262-272 validate_initialization. *)
  Definition rb_validate (c : rbezier) : res unit :=
    if negb (zlen (bz_pts (rb_hom c)) =? zlen (rb_pts c)) ||
       negb (zlen (bz_pts (rb_hom c)) =? zlen (rb_weights c)) then Throw invalid_setting_error
    else if negb (Bool.eqb (bz_periodic (rb_hom c)) (rb_periodic c)) then Throw invalid_setting_error
    else Ok tt.

  (** RationalBezier.h:38-43 evaluate. *)
  Definition rb_evaluate (c : rbezier) (t : T) : res pt :=
    do _ <- rb_validate c;
    do p <- bz_evaluate (rb_hom c) t;
    h_point p.

  (** RationalBezier.h:50-57 evaluate_derivative. *)
  Definition rb_evaluate_derivative (c : rbezier) (t : T) : res pt :=
    do _ <- rb_validate c;
    do p <- bz_evaluate (rb_hom c) t;
    do dp <- bz_evaluate_derivative (rb_hom c) t;
    h_derivative p dp.

  (** RationalBezier.h:59-71 evaluate_2nd_derivative. *)
  Definition rb_evaluate_2nd_derivative (c : rbezier) (t : T) : res pt :=
    do _ <- rb_validate c;
    do p <- bz_evaluate (rb_hom c) t;
    do d1 <- bz_evaluate_derivative (rb_hom c) t;
    do d2 <- bz_evaluate_2nd_derivative (rb_hom c) t;
    h_2nd_derivative p d1 d2.

  (** RationalBezier.h:73-81 set_control_point. *)
  Definition rb_set_control_point (c : rbezier) (i : Z) (p : pt) : res rbezier :=
    do _ <- rb_validate c;
    do pts <- set (rb_pts c) i p;
    do q <- get (bz_pts (rb_hom c)) i;
    do w <- get (rb_weights c) i;
    do hom <- bz_set_control_point (rb_hom c) i (vsnoc d (w *: p)%P (vlast d q));
    Ok {| rb_pts := pts; rb_weights := rb_weights c; rb_hom := hom; rb_periodic := rb_periodic c |}.

  (** RationalBezier.h:85 get_weight; BezierBase.h:48 get_control_point. *)
  Definition rb_get_weight (c : rbezier) (i : Z) : res T := get (rb_weights c) i.
  Definition rb_get_control_point (c : rbezier) (i : Z) : res pt := get (rb_pts c) i.

  (** RationalBezier.h:87-96 set_weight. *)
  Definition rb_set_weight (c : rbezier) (i : Z) (val : T) : res rbezier :=
    do _ <- rb_validate c;
    do ws <- set (rb_weights c) i val;
    do q <- get (bz_pts (rb_hom c)) i;
    do p <- get (rb_pts c) i;
    do hom <- bz_set_control_point (rb_hom c) i (vsnoc d (val *: p)%P val);
    Ok {| rb_pts := rb_pts c; rb_weights := ws; rb_hom := hom; rb_periodic := rb_periodic c |}.

  (** RationalBezier.h:238-247 set_homogeneous. *)
  Definition rb_set_homogeneous (hom : bezier hpt) : res rbezier :=
    do pts <- dehomogenize (bz_pts hom);
    let c := {| rb_pts := pts; rb_weights := map (vlast d) (bz_pts hom); rb_hom := hom;
                rb_periodic := bz_periodic hom |} in
    do _ <- rb_validate c;
    Ok c.

  (** RationalBezier.h:249-259 elevate_degree. *)
  Definition rb_elevate_degree (c : rbezier) : res rbezier :=
    do _ <- rb_validate c;
    do hom <- bz_elevate_degree (rb_hom c);
    do c' <- rb_set_homogeneous hom;
    do _ <- assert_ (Bool.eqb (rb_periodic c') (rb_periodic c));
    Ok c'.

  (** split.h:32-46 split(RationalBezier, t). *)
  Definition split_rbezier (c : rbezier) (t : T) : res (list rbezier) :=
    do parts <- split_bezier bz_split (rb_hom c) t;
    mapM rb_set_homogeneous parts.

  (** The usual way of building a curve: set_control_points, set_weights, initialize. *)
  Definition mk_rbezier (pts : list pt) (ws : list T) : res rbezier :=
    rb_initialize (rb_set_weights (rb_set_control_points rb_empty pts) ws).

  (** conversion.h:43-57 convert_to_RationalBezier(Bezier). *)
  Definition bezier_to_rbezier (c : bezier pt) : res rbezier :=
    do ws <- alloc s1 (bz_degree c + 1);
    mk_rbezier (bz_pts c) ws.

  (** conversion.h:73: [weights.size() > 0 && (weights.array() != weights[0]).any()]. *)
  Definition weights_differ (ws : list T) : bool :=
    match ws with
    | [] => false
    | w0 :: _ => existsb (fun w => negb (w =? w0)%S) ws
    end.

  (** conversion.h:69-81 convert_to_Bezier(RationalBezier). *)
  Definition rbezier_to_bezier (c : rbezier) : res (bezier pt) :=
    if weights_differ (rb_weights c) then Throw invalid_setting_error
    else Ok (mk_bezier (rb_pts c)).

  (** * NURBS *)

  (** NURBS.h:373-374 m_bspline_homogeneous, m_weights; BSplineBase.h:412-413 m_control_points,
      m_knots; CurveBase.h:216 m_periodic. *)
  Record nurbs := {
    nb_pts : list pt;
    nb_knots : list T;
    nb_weights : list T;
    nb_hom : bspline T hpt;
    nb_periodic : bool;
  }.

  (** A default constructed curve. *)
  Definition nb_empty : nurbs :=
    {| nb_pts := []; nb_knots := []; nb_weights := []; nb_hom := mk_bspline [] [];
       nb_periodic := false |}.

  (** BSplineBase.h:347-358 set_control_points. *)
  Definition nb_set_control_points (c : nurbs) (pts : list pt) : nurbs :=
    {| nb_pts := pts; nb_knots := nb_knots c; nb_weights := nb_weights c; nb_hom := nb_hom c;
       nb_periodic := nb_periodic c |}.
  (** BSplineBase.h:360-372 set_knots. *)
  Definition nb_set_knots (c : nurbs) (knots : list T) : nurbs :=
    {| nb_pts := nb_pts c; nb_knots := knots; nb_weights := nb_weights c; nb_hom := nb_hom c;
       nb_periodic := nb_periodic c |}.
  (** NURBS.h:307-317 set_weights. *)
  Definition nb_set_weights (c : nurbs) (ws : list T) : nurbs :=
    {| nb_pts := nb_pts c; nb_knots := nb_knots c; nb_weights := ws; nb_hom := nb_hom c;
       nb_periodic := nb_periodic c |}.
  (** CurveBase.h:39 set_periodic. *)
  Definition nb_set_periodic (c : nurbs) (b : bool) : nurbs :=
    {| nb_pts := nb_pts c; nb_knots := nb_knots c; nb_weights := nb_weights c; nb_hom := nb_hom c;
       nb_periodic := b |}.

  (** The B-spline part of the object (the base class), whose degree validate_curve checks. *)
  Definition nb_base (c : nurbs) : bspline T pt :=
    {| bs_pts := nb_pts c; bs_knots := nb_knots c; bs_periodic := nb_periodic c |}.

  (** NURBS.h:292-303 initialize. *)
  Definition nb_initialize (c : nurbs) : res nurbs :=
    do ctrl_pts <- homogenize (nb_pts c) (nb_weights c);
    Ok {| nb_pts := nb_pts c; nb_knots := nb_knots c; nb_weights := nb_weights c;
          nb_hom := {| bs_pts := ctrl_pts; bs_knots := nb_knots c; bs_periodic := nb_periodic c |};
          nb_periodic := nb_periodic c |}.

  (** NURBS.h:344-355 validate_initialization. *)
  Definition nb_validate (c : nurbs) : res unit :=
    do _ <- bs_validate (nb_base c);
    if negb (zlen (bs_pts (nb_hom c)) =? zlen (nb_pts c)) ||
       negb (zlen (bs_pts (nb_hom c)) =? zlen (nb_weights c)) then Throw invalid_setting_error
    else if negb (Bool.eqb (bs_periodic (nb_hom c)) (nb_periodic c)) then Throw invalid_setting_error
    else Ok tt.

  (** NURBS.h:51-56 evaluate. *)
  Definition nb_evaluate (c : nurbs) (t : T) : res pt :=
    do _ <- nb_validate c;
    do p <- bs_evaluate (nb_hom c) t;
    h_point p.

  (** NURBS.h:63-70 evaluate_derivative. *)
  Definition nb_evaluate_derivative (c : nurbs) (t : T) : res pt :=
    do _ <- nb_validate c;
    do p <- bs_evaluate (nb_hom c) t;
    do dp <- bs_evaluate_derivative (nb_hom c) t;
    h_derivative p dp.

  (** NURBS.h:72-84 evaluate_2nd_derivative. *)
  Definition nb_evaluate_2nd_derivative (c : nurbs) (t : T) : res pt :=
    do _ <- nb_validate c;
    do p <- bs_evaluate (nb_hom c) t;
    do d1 <- bs_evaluate_derivative (nb_hom c) t;
    do d2 <- bs_evaluate_2nd_derivative (nb_hom c) t;
    h_2nd_derivative p d1 d2.

  (** NURBS.h:87-95 set_control_point. *)
  Definition nb_set_control_point (c : nurbs) (i : Z) (p : pt) : res nurbs :=
    do _ <- nb_validate c;
    do pts <- set (nb_pts c) i p;
    do q <- get (bs_pts (nb_hom c)) i;
    do w <- get (nb_weights c) i;
    do hom <- bs_set_control_point (nb_hom c) i (vsnoc d (w *: p)%P (vlast d q));
    Ok {| nb_pts := pts; nb_knots := nb_knots c; nb_weights := nb_weights c; nb_hom := hom;
          nb_periodic := nb_periodic c |}.

  (** NURBS.h:101-110 set_weight. *)
  Definition nb_set_weight (c : nurbs) (i : Z) (val : T) : res nurbs :=
    do _ <- nb_validate c;
    do ws <- set (nb_weights c) i val;
    do q <- get (bs_pts (nb_hom c)) i;
    do p <- get (nb_pts c) i;
    do hom <- bs_set_control_point (nb_hom c) i (vsnoc d (val *: p)%P val);
    Ok {| nb_pts := nb_pts c; nb_knots := nb_knots c; nb_weights := ws; nb_hom := hom;
          nb_periodic := nb_periodic c |}.

  (** NURBS.h:112-116 set_knot. *)
  Definition nb_set_knot (c : nurbs) (i : Z) (val : T) : res nurbs :=
    do knots <- set (nb_knots c) i val;
    do hom <- bs_set_knot (nb_hom c) i val;
    Ok {| nb_pts := nb_pts c; nb_knots := knots; nb_weights := nb_weights c; nb_hom := hom;
          nb_periodic := nb_periodic c |}.

  (** NURBS.h:321-331 set_homogeneous. *)
  Definition nb_set_homogeneous (hom : bspline T hpt) : res nurbs :=
    do pts <- dehomogenize (bs_pts hom);
    let c := {| nb_pts := pts; nb_knots := bs_knots hom; nb_weights := map (vlast d) (bs_pts hom);
                nb_hom := hom; nb_periodic := bs_periodic hom |} in
    do _ <- nb_validate c;
    Ok c.

  (** NURBS.h:119-124 insert_knot. *)
  Definition nb_insert_knot (c : nurbs) (t : T) (multiplicity : Z) : res nurbs :=
    do _ <- nb_validate c;
    do hom <- bs_insert_knot (nb_hom c) t multiplicity;
    nb_set_homogeneous hom.

  (** NURBS.h:126-132 remove_knot. *)
  Definition nb_remove_knot (c : nurbs) (t : T) (multiplicity : Z) (tol : T) : res (nurbs * Z) :=
    do _ <- nb_validate c;
    do '(hom, r) <- bs_remove_knot (nb_hom c) t multiplicity tol;
    do c' <- nb_set_homogeneous hom;
    Ok (c', r).

  (** NURBS.h:134-156 convert_to_RationalBezier. *)
  Definition nb_convert_to_RationalBezier (c : nurbs) : res (list rbezier * list T) :=
    do '(beziers, bounds) <- bs_convert_to_Bezier (nb_hom c);
    do segments <- mapM rb_set_homogeneous beziers;
    Ok (segments, bounds).

  (** NURBS.h:333-341 elevate_degree. *)
  Definition nb_elevate_degree (c : nurbs) : res nurbs :=
    do _ <- nb_validate c;
    do hom <- bs_elevate_degree bz_elevate_degree (nb_hom c);
    do c' <- nb_set_homogeneous hom;
    do _ <- assert_ (Bool.eqb (nb_periodic c') (nb_periodic c));
    Ok c'.

  (** NURBS.h:357-370 combine_rational_Beziers. *)
  Definition nb_combine_rational_Beziers (curves : list rbezier) (bounds : list T) : res nurbs :=
    do hom <- bs_combine_Beziers (map rb_hom curves) bounds;
    nb_set_homogeneous hom.

  (** split.h:104-118 split(NURBS, t). *)
  Definition split_nurbs (c : nurbs) (t : T) : res (list nurbs) :=
    do parts <- split_bspline (nb_hom c) t;
    mapM nb_set_homogeneous parts.

  (** The usual way of building a curve: set_control_points, set_knots, set_weights, initialize. *)
  Definition mk_nurbs (pts : list pt) (knots ws : list T) : res nurbs :=
    nb_initialize (nb_set_weights (nb_set_knots (nb_set_control_points nb_empty pts) knots) ws).

  (** conversion.h:86-101 convert_to_NURBS(BSpline). *)
  Definition bspline_to_nurbs (c : bspline T pt) : res nurbs :=
    do ws <- alloc s1 (zlen (bs_pts c));
    mk_nurbs (bs_pts c) (bs_knots c) ws.

  (** conversion.h:106-119 convert_to_BSpline(NURBS). *)
  Definition nurbs_to_bspline (c : nurbs) : res (bspline T pt) :=
    if weights_differ (nb_weights c) then Throw invalid_setting_error
    else Ok (mk_bspline (nb_pts c) (nb_knots c)).
End Rational.
Arguments rbezier T d : clear implicits.
Arguments nurbs T d : clear implicits.

(** Histories of calls on an object, for C25 (not code of /repo): the element-wise setters
    RationalBezier.h:73-96, NURBS.h:87-116 and the knot operations NURBS.h:119-132. *)
Section Histories.
  Context {T : Type} {SO : ScalarOps T} {d : nat}.
  Inductive rb_call := RSetPoint (i : nat) (p : vec T d) | RSetWeight (i : nat) (w : T).
  Definition rb_step (c : rbezier T d) (k : rb_call) : res (rbezier T d) :=
    match k with
    | RSetPoint i p => rb_set_control_point c (Z.of_nat i) p
    | RSetWeight i w => rb_set_weight c (Z.of_nat i) w
    end.
  Fixpoint rb_run (ks : list rb_call) (c : rbezier T d) : res (rbezier T d) :=
    match ks with [] => Ok c | k :: ks => do c <- rb_step c k; rb_run ks c end.

  Inductive nb_call :=
  | NSetPoint (i : nat) (p : vec T d) | NSetWeight (i : nat) (w : T) | NSetKnot (i : nat) (u : T)
  | NInsert (t : T) (multiplicity : Z) | NRemove (t : T) (multiplicity : Z) (tol : T).
  Definition nb_step (c : nurbs T d) (k : nb_call) : res (nurbs T d) :=
    match k with
    | NSetPoint i p => nb_set_control_point c (Z.of_nat i) p
    | NSetWeight i w => nb_set_weight c (Z.of_nat i) w
    | NSetKnot i u => nb_set_knot c (Z.of_nat i) u
    | NInsert t m => nb_insert_knot c t m
    | NRemove t m tol => do '(c, _) <- nb_remove_knot c t m tol; Ok c
    end.
  Fixpoint nb_run (ks : list nb_call) (c : nurbs T d) : res (nurbs T d) :=
    match ks with [] => Ok c | k :: ks => do c <- nb_step c k; nb_run ks c end.
End Histories.
Arguments rb_call T d : clear implicits.
Arguments nb_call T d : clear implicits.
