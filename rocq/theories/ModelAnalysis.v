(** Inflections, singularities and turning angle reduction: the dispatchers at the end of the generated headers
    internal/auto_*.h and the member functions of the curve classes that call them.

    Built with NANOSPLINE_SYMPY (otherwise these functions throw not_implemented_error); [high] is the macro
    HIGH_DEGREE_SUPPORT.  [eigen] is the eigenvalue solver of ModelRoots.v.  The dimension is 2, as the functions require.
    get_turning_angle is in ModelTurning.v. *)
From Coq Require Import QArith.
From Verif Require Import Monad Scalar ModelBezier ModelBSpline ModelRational ModelRoots ModelAuto ModelAutoRational.
Local Open Scope Z_scope.

Section Dispatch.
  Context {T : Type} {SO : ScalarOps T}.

  (** internal/auto_inflection_Bezier.h:242-282 compute_Bezier_inflections: the coefficients of the polynomial solved, by number of control points *)
  Definition inflection_coeffs (high : bool) (pts : list (vec T 2)) : res (list T) :=
    match pts with
    | [(cx0, (cy0, _)); (cx1, (cy1, _)); (cx2, (cy2, _))] => Ok (infl_2 cx0 cy0 cx1 cy1 cx2 cy2)
    | [(cx0, (cy0, _)); (cx1, (cy1, _)); (cx2, (cy2, _)); (cx3, (cy3, _))] => Ok (infl_3 cx0 cy0 cx1 cy1 cx2 cy2 cx3 cy3)
    | [(cx0, (cy0, _)); (cx1, (cy1, _)); (cx2, (cy2, _)); (cx3, (cy3, _)); (cx4, (cy4, _))] => Ok (infl_4 cx0 cy0 cx1 cy1 cx2 cy2 cx3 cy3 cx4 cy4)
    | [(cx0, (cy0, _)); (cx1, (cy1, _)); (cx2, (cy2, _)); (cx3, (cy3, _)); (cx4, (cy4, _)); (cx5, (cy5, _))] => if high then Ok (infl_5 cx0 cy0 cx1 cy1 cx2 cy2 cx3 cy3 cx4 cy4 cx5 cy5) else Throw not_implemented_error
    | [(cx0, (cy0, _)); (cx1, (cy1, _)); (cx2, (cy2, _)); (cx3, (cy3, _)); (cx4, (cy4, _)); (cx5, (cy5, _)); (cx6, (cy6, _))] => if high then Ok (infl_6 cx0 cy0 cx1 cy1 cx2 cy2 cx3 cy3 cx4 cy4 cx5 cy5 cx6 cy6) else Throw not_implemented_error
    | [(cx0, (cy0, _)); (cx1, (cy1, _)); (cx2, (cy2, _)); (cx3, (cy3, _)); (cx4, (cy4, _)); (cx5, (cy5, _)); (cx6, (cy6, _)); (cx7, (cy7, _))] => if high then Ok (infl_7 cx0 cy0 cx1 cy1 cx2 cy2 cx3 cy3 cx4 cy4 cx5 cy5 cx6 cy6 cx7 cy7) else Throw not_implemented_error
    | [(cx0, (cy0, _)); (cx1, (cy1, _)); (cx2, (cy2, _)); (cx3, (cy3, _)); (cx4, (cy4, _)); (cx5, (cy5, _)); (cx6, (cy6, _)); (cx7, (cy7, _)); (cx8, (cy8, _))] => if high then Ok (infl_8 cx0 cy0 cx1 cy1 cx2 cy2 cx3 cy3 cx4 cy4 cx5 cy5 cx6 cy6 cx7 cy7 cx8 cy8) else Throw not_implemented_error
    | [(cx0, (cy0, _)); (cx1, (cy1, _)); (cx2, (cy2, _)); (cx3, (cy3, _)); (cx4, (cy4, _)); (cx5, (cy5, _)); (cx6, (cy6, _)); (cx7, (cy7, _)); (cx8, (cy8, _)); (cx9, (cy9, _))] => if high then Ok (infl_9 cx0 cy0 cx1 cy1 cx2 cy2 cx3 cy3 cx4 cy4 cx5 cy5 cx6 cy6 cx7 cy7 cx8 cy8 cx9 cy9) else Throw not_implemented_error
    | [(cx0, (cy0, _)); (cx1, (cy1, _)); (cx2, (cy2, _)); (cx3, (cy3, _)); (cx4, (cy4, _)); (cx5, (cy5, _)); (cx6, (cy6, _)); (cx7, (cy7, _)); (cx8, (cy8, _)); (cx9, (cy9, _)); (cx10, (cy10, _))] => if high then Ok (infl_10 cx0 cy0 cx1 cy1 cx2 cy2 cx3 cy3 cx4 cy4 cx5 cy5 cx6 cy6 cx7 cy7 cx8 cy8 cx9 cy9 cx10 cy10) else Throw not_implemented_error
    | _ => Throw not_implemented_error
    end.

  (** internal/auto_singularity_Bezier.h:132-156 compute_Bezier_singularities *)
  Definition singularity_coeffs (high : bool) (pts : list (vec T 2)) : res (list T) :=
    match pts with
    | [(cx0, (cy0, _)); (cx1, (cy1, _)); (cx2, (cy2, _))] => Ok (sing_2 cx0 cy0 cx1 cy1 cx2 cy2)
    | [(cx0, (cy0, _)); (cx1, (cy1, _)); (cx2, (cy2, _)); (cx3, (cy3, _))] => Ok (sing_3 cx0 cy0 cx1 cy1 cx2 cy2 cx3 cy3)
    | [(cx0, (cy0, _)); (cx1, (cy1, _)); (cx2, (cy2, _)); (cx3, (cy3, _)); (cx4, (cy4, _))] => Ok (sing_4 cx0 cy0 cx1 cy1 cx2 cy2 cx3 cy3 cx4 cy4)
    | [(cx0, (cy0, _)); (cx1, (cy1, _)); (cx2, (cy2, _)); (cx3, (cy3, _)); (cx4, (cy4, _)); (cx5, (cy5, _))] => if high then Ok (sing_5 cx0 cy0 cx1 cy1 cx2 cy2 cx3 cy3 cx4 cy4 cx5 cy5) else Throw not_implemented_error
    | [(cx0, (cy0, _)); (cx1, (cy1, _)); (cx2, (cy2, _)); (cx3, (cy3, _)); (cx4, (cy4, _)); (cx5, (cy5, _)); (cx6, (cy6, _))] => if high then Ok (sing_6 cx0 cy0 cx1 cy1 cx2 cy2 cx3 cy3 cx4 cy4 cx5 cy5 cx6 cy6) else Throw not_implemented_error
    | _ => Throw not_implemented_error
    end.

  (** internal/auto_match_tangent_Bezier.h:251-292 match_tangent_bezier; (nx, ny) is the argument tangent *)
  Definition tangent_coeffs (high : bool) (pts : list (vec T 2)) (nx ny : T) : res (list T) :=
    match pts with
    | [(cx0, (cy0, _)); (cx1, (cy1, _)); (cx2, (cy2, _))] => Ok (tang_2 cx0 cy0 cx1 cy1 cx2 cy2 nx ny)
    | [(cx0, (cy0, _)); (cx1, (cy1, _)); (cx2, (cy2, _)); (cx3, (cy3, _))] => Ok (tang_3 cx0 cy0 cx1 cy1 cx2 cy2 cx3 cy3 nx ny)
    | [(cx0, (cy0, _)); (cx1, (cy1, _)); (cx2, (cy2, _)); (cx3, (cy3, _)); (cx4, (cy4, _))] => Ok (tang_4 cx0 cy0 cx1 cy1 cx2 cy2 cx3 cy3 cx4 cy4 nx ny)
    | [(cx0, (cy0, _)); (cx1, (cy1, _)); (cx2, (cy2, _)); (cx3, (cy3, _)); (cx4, (cy4, _)); (cx5, (cy5, _))] => if high then Ok (tang_5 cx0 cy0 cx1 cy1 cx2 cy2 cx3 cy3 cx4 cy4 cx5 cy5 nx ny) else Throw not_implemented_error
    | [(cx0, (cy0, _)); (cx1, (cy1, _)); (cx2, (cy2, _)); (cx3, (cy3, _)); (cx4, (cy4, _)); (cx5, (cy5, _)); (cx6, (cy6, _))] => if high then Ok (tang_6 cx0 cy0 cx1 cy1 cx2 cy2 cx3 cy3 cx4 cy4 cx5 cy5 cx6 cy6 nx ny) else Throw not_implemented_error
    | [(cx0, (cy0, _)); (cx1, (cy1, _)); (cx2, (cy2, _)); (cx3, (cy3, _)); (cx4, (cy4, _)); (cx5, (cy5, _)); (cx6, (cy6, _)); (cx7, (cy7, _))] => if high then Ok (tang_7 cx0 cy0 cx1 cy1 cx2 cy2 cx3 cy3 cx4 cy4 cx5 cy5 cx6 cy6 cx7 cy7 nx ny) else Throw not_implemented_error
    | [(cx0, (cy0, _)); (cx1, (cy1, _)); (cx2, (cy2, _)); (cx3, (cy3, _)); (cx4, (cy4, _)); (cx5, (cy5, _)); (cx6, (cy6, _)); (cx7, (cy7, _)); (cx8, (cy8, _))] => if high then Ok (tang_8 cx0 cy0 cx1 cy1 cx2 cy2 cx3 cy3 cx4 cy4 cx5 cy5 cx6 cy6 cx7 cy7 cx8 cy8 nx ny) else Throw not_implemented_error
    | [(cx0, (cy0, _)); (cx1, (cy1, _)); (cx2, (cy2, _)); (cx3, (cy3, _)); (cx4, (cy4, _)); (cx5, (cy5, _)); (cx6, (cy6, _)); (cx7, (cy7, _)); (cx8, (cy8, _)); (cx9, (cy9, _))] => if high then Ok (tang_9 cx0 cy0 cx1 cy1 cx2 cy2 cx3 cy3 cx4 cy4 cx5 cy5 cx6 cy6 cx7 cy7 cx8 cy8 cx9 cy9 nx ny) else Throw not_implemented_error
    | [(cx0, (cy0, _)); (cx1, (cy1, _)); (cx2, (cy2, _)); (cx3, (cy3, _)); (cx4, (cy4, _)); (cx5, (cy5, _)); (cx6, (cy6, _)); (cx7, (cy7, _)); (cx8, (cy8, _)); (cx9, (cy9, _)); (cx10, (cy10, _))] => if high then Ok (tang_10 cx0 cy0 cx1 cy1 cx2 cy2 cx3 cy3 cx4 cy4 cx5 cy5 cx6 cy6 cx7 cy7 cx8 cy8 cx9 cy9 cx10 cy10 nx ny) else Throw not_implemented_error
    | _ => Throw not_implemented_error
    end.

  (** internal/auto_inflection_RationalBezier.h:98-115 compute_RationalBezier_inflections *)
  Definition rinflection_coeffs (pts : list (vec T 2)) (ws : list T) : res (list T) :=
    match pts with
    | [(cx0, (cy0, _)); (cx1, (cy1, _)); (cx2, (cy2, _))] => match ws with [w0; w1; w2] => Ok (rinfl_2 cx0 cy0 cx1 cy1 cx2 cy2 w0 w1 w2) | _ => Undef end
    | [(cx0, (cy0, _)); (cx1, (cy1, _)); (cx2, (cy2, _)); (cx3, (cy3, _))] => match ws with [w0; w1; w2; w3] => Ok (rinfl_3 cx0 cy0 cx1 cy1 cx2 cy2 cx3 cy3 w0 w1 w2 w3) | _ => Undef end
    | [(cx0, (cy0, _)); (cx1, (cy1, _)); (cx2, (cy2, _)); (cx3, (cy3, _)); (cx4, (cy4, _))] => match ws with [w0; w1; w2; w3; w4] => Ok (rinfl_4 cx0 cy0 cx1 cy1 cx2 cy2 cx3 cy3 cx4 cy4 w0 w1 w2 w3 w4) | _ => Undef end
    | _ => Throw not_implemented_error
    end.

  (** internal/auto_singularity_RationalBezier.h:65-80 compute_RationalBezier_singularities *)
  Definition rsingularity_coeffs (pts : list (vec T 2)) (ws : list T) : res (list T) :=
    match pts with
    | [(cx0, (cy0, _)); (cx1, (cy1, _)); (cx2, (cy2, _))] => match ws with [w0; w1; w2] => Ok (rsing_2 cx0 cy0 cx1 cy1 cx2 cy2 w0 w1 w2) | _ => Undef end
    | [(cx0, (cy0, _)); (cx1, (cy1, _)); (cx2, (cy2, _)); (cx3, (cy3, _))] => match ws with [w0; w1; w2; w3] => Ok (rsing_3 cx0 cy0 cx1 cy1 cx2 cy2 cx3 cy3 w0 w1 w2 w3) | _ => Undef end
    | _ => Throw not_implemented_error
    end.

  (** internal/auto_match_tangent_RationalBezier.h:89-107 match_tangent_rational_bezier *)
  Definition rtangent_coeffs (pts : list (vec T 2)) (ws : list T) (nx ny : T) : res (list T) :=
    match pts with
    | [(cx0, (cy0, _)); (cx1, (cy1, _)); (cx2, (cy2, _))] => match ws with [w0; w1; w2] => Ok (rtang_2 cx0 cy0 cx1 cy1 cx2 cy2 w0 w1 w2 nx ny) | _ => Undef end
    | [(cx0, (cy0, _)); (cx1, (cy1, _)); (cx2, (cy2, _)); (cx3, (cy3, _))] => match ws with [w0; w1; w2; w3] => Ok (rtang_3 cx0 cy0 cx1 cy1 cx2 cy2 cx3 cy3 w0 w1 w2 w3 nx ny) | _ => Undef end
    | [(cx0, (cy0, _)); (cx1, (cy1, _)); (cx2, (cy2, _)); (cx3, (cy3, _)); (cx4, (cy4, _))] => match ws with [w0; w1; w2; w3; w4] => Ok (rtang_4 cx0 cy0 cx1 cy1 cx2 cy2 cx3 cy3 cx4 cy4 w0 w1 w2 w3 w4 nx ny) | _ => Undef end
    | _ => Throw not_implemented_error
    end.

End Dispatch.

Section Analysis.
  Context {T : Type} {SO : ScalarOps T}.
  Local Open Scope scal_scope.
  Variable eigen : list (list T) -> res (list (T * T)).

  (** std::sort on scalars *)
  Fixpoint ins (x : T) (l : list T) : list T :=
    match l with [] => [x] | y :: l' => if x <=? y then x :: l else y :: ins x l' end.
  Definition std_sort (l : list T) : list T := fold_right ins [] l.
  (** erase(unique(begin, end), end) *)
  Fixpoint std_unique (l : list T) : list T :=
    match l with
    | x :: (y :: _) as l' => if seq_ x y then std_unique l' else x :: std_unique l'
    | _ => l
    end.
  (** The last three statements of every function below, e.g. Bezier.h:130-133 *)
  Definition sorted_unique (l : list T) : list T := std_unique (std_sort l).

  (** try { ... } catch (infinite_root_error&) { res.clear(); } (Bezier.h:122-128) *)
  Definition catch_infinite (r : res (list T)) : res (list T) :=
    match r with Throw infinite_root_error => Ok [] | _ => r end.

  (** "constexpr Scalar tol = static_cast<Scalar>(1e-8)" of the generated functions and of reduce_turning_angle *)
  Definition tol8 : T := sofQ (1 # (10 ^ 8)%positive)%Q.

  (** Body of each generated function: PolynomialRootFinder<Scalar, N>::find_real_roots_in_interval on N + 1 coefficients,
      result initially empty *)
  Definition solve (coeffs : res (list T)) (t0 t1 : T) : res (list T) :=
    do cs <- coeffs; find_roots eigen (length cs - 1) cs [] t0 t1 tol8.

  (** Bezier.h:111-139 Bezier<S, 2, D, G>::compute_inflections *)
  Definition bz_compute_inflections (high : bool) (c : bezier (vec T 2)) (lower upper : T) : res (list T) :=
    if (zlen (bz_pts c) - 1 <=? 2)%Z then Ok []
    else do l <- catch_infinite (solve (inflection_coeffs high (bz_pts c)) lower upper); Ok (sorted_unique l).
  (** Bezier.h:636-640 degree 2 *)
  Definition bz2_compute_inflections (c : bezier (vec T 2)) (lower upper : T) : res (list T) := Ok [].
  (** Bezier.h:844-872 degree 3 (the storage has exactly four rows) *)
  Definition bz3_compute_inflections (c : bezier (vec T 2)) (lower upper : T) : res (list T) :=
    do l <- catch_infinite (solve (inflection_coeffs false (bz_pts c)) lower upper); Ok (sorted_unique l).

  (** Bezier.h:203-225, also 701-725 (degree 2) and 941-970 (degree 3): compute_singularities; no try block *)
  Definition bz_compute_singularities (high : bool) (c : bezier (vec T 2)) (lower upper : T) : res (list T) :=
    do l <- solve (singularity_coeffs high (bz_pts c)) lower upper; Ok (sorted_unique l).

  (** The part of reduce_turning_angle all classes share, e.g. Bezier.h:169-195; [sum_test] is the extra disjunct
      "(tan0 + tan1).norm() < 2 * tol" of Bezier.h:902 and RationalBezier.h:159 *)
  Definition reduce_with (sum_test : bool) (tan0 tan1 : vec T 2) (coeffs : T -> T -> res (list T)) (lower upper : T)
      : res (list T) :=
    if (pnorm tan0 <? tol8) || (pnorm tan1 <? tol8) || (sum_test && (pnorm (padd tan0 tan1) <? sofZ 2 * tol8))
    then do m <- ddiv (lower + upper) (sofZ 2); Ok [m]
    else
      do u0 <- pdivs tan0 (pnorm tan0);
      do u1 <- pdivs tan1 (pnorm tan1);
      do nx <- ddiv (- (coord 2 1 u0 + coord 2 1 u1)) (sofZ 2);
      do ny <- ddiv (coord 2 0 u0 + coord 2 0 u1) (sofZ 2);
      do l <- catch_infinite (solve (coeffs nx ny) lower upper);
      Ok (sorted_unique l).

  (** Bezier.h:158-201 *)
  Definition bz_reduce_turning_angle (high : bool) (c : bezier (vec T 2)) (lower upper : T) : res (list T) :=
    if (zlen (bz_pts c) - 1 <? 2)%Z then Ok []
    else
      do tan0 <- bz_evaluate_derivative c lower;
      do tan1 <- bz_evaluate_derivative c upper;
      reduce_with false tan0 tan1 (tangent_coeffs high (bz_pts c)) lower upper.
  (** Bezier.h:653-699 degree 2 *)
  Definition bz2_reduce_turning_angle (c : bezier (vec T 2)) (lower upper : T) : res (list T) :=
    do tan0 <- bz2_evaluate_derivative c lower;
    do tan1 <- bz2_evaluate_derivative c upper;
    reduce_with false tan0 tan1 (tangent_coeffs false (bz_pts c)) lower upper.
  (** Bezier.h:891-939 degree 3 *)
  Definition bz3_reduce_turning_angle (c : bezier (vec T 2)) (lower upper : T) : res (list T) :=
    do tan0 <- bz3_evaluate_derivative c lower;
    do tan1 <- bz3_evaluate_derivative c upper;
    reduce_with true tan0 tan1 (tangent_coeffs false (bz_pts c)) lower upper.

  (** RationalBezier.h:98-125 *)
  Definition rb_compute_inflections (c : rbezier T 2) (lower upper : T) : res (list T) :=
    if (zlen (rb_pts c) - 1 <=? 2)%Z then Ok []
    else do l <- catch_infinite (solve (rinflection_coeffs (rb_pts c) (rb_weights c)) lower upper); Ok (sorted_unique l).
  (** RationalBezier.h:189-210 *)
  Definition rb_compute_singularities (c : rbezier T 2) (lower upper : T) : res (list T) :=
    do l <- solve (rsingularity_coeffs (rb_pts c) (rb_weights c)) lower upper; Ok (sorted_unique l).
  (** RationalBezier.h:144-187 *)
  Definition rb_reduce_turning_angle (c : rbezier T 2) (lower upper : T) : res (list T) :=
    if (zlen (rb_pts c) - 1 <? 2)%Z then Ok []
    else
      do tan0 <- rb_evaluate_derivative c lower;
      do tan1 <- rb_evaluate_derivative c upper;
      reduce_with true tan0 tan1 (rtangent_coeffs (rb_pts c) (rb_weights c)) lower upper.

  (** BSpline.h:159-195 (inflections), 228-269 (turning angle), 271-312 (singularities); NURBS.h:158-192, 211-249, 251-288:
      the same loop over the Bezier pieces [segs] with bounds [bounds], each analysed by [analyse] *)
  Definition piecewise_analysis {B} (analyse : B -> T -> T -> res (list T)) (segs : list B) (bounds : list T) (lower upper : T)
      : res (list T) :=
    do _ <- assert_ (zlen bounds =? zlen segs + 1)%Z;
    do l <- for_up 0%Z (zlen segs) (fun idx acc =>
      do t_min <- get bounds idx;
      do t_max <- get bounds (idx + 1)%Z;
      if (t_max <? lower) || (upper <? t_min) then Ok acc
      else
        do nl <- ddiv (lower - t_min) (t_max - t_min);
        do nu <- ddiv (upper - t_min) (t_max - t_min);
        do curve <- get segs idx;
        do ts <- analyse curve (smax nl s0) (smin nu s1);
        Ok (acc ++ map (fun t => t * (t_max - t_min) + t_min) ts)) [];
    Ok (sorted_unique l).
  Definition bs_compute_inflections (high : bool) (c : bspline T (vec T 2)) (lower upper : T) : res (list T) :=
    do '(segs, bounds) <- bs_convert_to_Bezier c; piecewise_analysis (bz_compute_inflections high) segs bounds lower upper.
  Definition bs_reduce_turning_angle (high : bool) (c : bspline T (vec T 2)) (lower upper : T) : res (list T) :=
    do '(segs, bounds) <- bs_convert_to_Bezier c; piecewise_analysis (bz_reduce_turning_angle high) segs bounds lower upper.
  Definition bs_compute_singularities (high : bool) (c : bspline T (vec T 2)) (lower upper : T) : res (list T) :=
    do '(segs, bounds) <- bs_convert_to_Bezier c; piecewise_analysis (bz_compute_singularities high) segs bounds lower upper.
  Definition nb_compute_inflections (c : nurbs T 2) (lower upper : T) : res (list T) :=
    do '(segs, bounds) <- nb_convert_to_RationalBezier c; piecewise_analysis rb_compute_inflections segs bounds lower upper.
  Definition nb_reduce_turning_angle (c : nurbs T 2) (lower upper : T) : res (list T) :=
    do '(segs, bounds) <- nb_convert_to_RationalBezier c; piecewise_analysis rb_reduce_turning_angle segs bounds lower upper.
  Definition nb_compute_singularities (c : nurbs T 2) (lower upper : T) : res (list T) :=
    do '(segs, bounds) <- nb_convert_to_RationalBezier c; piecewise_analysis rb_compute_singularities segs bounds lower upper.
End Analysis.
