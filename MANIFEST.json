{
 "claims": [
  {
   "property": "C01",
   "status": "proved",
   "theorems": [
    "C01_bezier_evaluate"
   ],
   "note": "all degrees, dimensions, real parameters"
  },
  {
   "property": "C02",
   "status": "proved",
   "theorems": [
    "C02_bezier_endpoints"
   ],
   "note": ""
  },
  {
   "property": "C03",
   "status": "proved",
   "theorems": [
    "C03_bezier_affine",
    "C03_bspline_affine"
   ],
   "note": "Bezier curves of any degree and B-splines (any valid knots, also periodic)"
  },
  {
   "property": "C04",
   "status": "proved",
   "theorems": [
    "C04_bezier_convex_hull",
    "C04_bspline_convex_hull"
   ],
   "note": "Bezier; B-spline under the hypotheses of C14"
  },
  {
   "property": "C05",
   "status": "proved",
   "theorems": [
    "C05_degree0",
    "C05_degree1",
    "C05_degree2",
    "C05_degree3"
   ],
   "note": "degrees 0,1,2,3 against the generic class, non-periodic; the periodic case is C11"
  },
  {
   "property": "C06",
   "status": "proved",
   "theorems": [
    "C06_bezier_derivatives"
   ],
   "note": ""
  },
  {
   "property": "C07",
   "status": "proved",
   "theorems": [
    "C07_bezier_split",
    "C07_bezier_split_outside",
    "C07_free_split"
   ],
   "note": "member split and the free function; the tolerance band of the free function is C56"
  },
  {
   "property": "C08",
   "status": "proved",
   "theorems": [
    "C08_bezier_subcurve",
    "C08_bezier_subcurve_throws"
   ],
   "note": ""
  },
  {
   "property": "C09",
   "status": "partial",
   "theorems": [
    "C09_cubic_subcurve_actual",
    "C09_cubic_subcurve_empty_refuted",
    "C09_cubic_subcurve_partial",
    "C09_cubic_subcurve_refuted"
   ],
   "note": "FALSE of the code: the specialised cubic subcurve does not renormalise t1 after the first split (Bezier.h:1000-1019); refuted with a witness, the actual value proved, and the claim proved when the range touches an end of [0,1]"
  },
  {
   "property": "C10",
   "status": "proved",
   "theorems": [
    "C10_bezier_elevate",
    "C10_elevate_specialised"
   ],
   "note": "any number of elevations; specialised classes proved equal to the generic one"
  },
  {
   "property": "C100",
   "status": "partial",
   "theorems": [
    "C100_advancing_partial",
    "C100_cubic_ends",
    "C100_cubic_interior",
    "C100_cubic_interior_refuted",
    "C100_double_point_refuted",
    "C100_full_turn_refuted",
    "C100_heading_partial",
    "C100_quadratic",
    "C100_throws"
   ],
   "note": "proved for quadratic curves, for curves of every degree whose control polygon advances in one direction, and up to full turns when neighbouring control points of the sub-curve differ; cubic curves agree with the generic class on intervals that start at 0 or end at 1.  FALSE in general: a full turn too much, double control points, and cubic curves on inner intervals, where the wrong upper end is used (refuted)"
  },
  {
   "property": "C101",
   "status": "partial",
   "theorems": [
    "C101_loop_refuted",
    "C101_nurbs_partial",
    "C101_rational_partial"
   ],
   "note": "proved when the curve turns by less than half a turn between samples and sampled tangents are at least machine epsilon long.  FALSE in general: a cubic with a loop (refuted)"
  },
  {
   "property": "C102",
   "status": "partial",
   "theorems": [
    "C102_cubic_knot_end",
    "C102_cubic_knot_end_refuted",
    "C102_cubic_knot_start_refuted",
    "C102_cubic_partial",
    "C102_generic_partial",
    "C102_linear",
    "C102_quadratic"
   ],
   "note": "proved for template degree 2, for template degrees above 3 (and dynamic) when the polygon of every Bezier piece advances in one direction, and for degree 3 when moreover the interval contains a knot and does not end at an inner one.  FALSE for degree 3 in general: up to an inner knot the next piece is included, from an inner knot the behaviour is undefined (refuted); degree 1 ignores corners.  Domain knots more than 1e-16 apart, not periodic"
  },
  {
   "property": "C103",
   "status": "partial",
   "theorems": [
    "C103_circle_partial",
    "C103_clockwise_refuted",
    "C103_line"
   ],
   "note": "proved for lines and circles that run counter clockwise.  FALSE for circles that run clockwise: wrong sign (refuted)"
  },
  {
   "property": "C104",
   "status": "partial",
   "theorems": [
    "C104_any",
    "C104_bezier",
    "C104_bspline",
    "C104_negative_refuted",
    "C104_nurbs",
    "C104_point_refuted",
    "C104_rational_bezier"
   ],
   "note": "proved for curves in the convex hull of their control points, in particular Bezier curves, B-splines, and rational curves with positive weights (not periodic, distinct knots more than 1e-16 apart).  FALSE when all control points coincide (division by zero) and for negative weights (the curve leaves the view) (refuted)"
  },
  {
   "property": "C105",
   "status": "proved",
   "theorems": [
    "C105_several"
   ],
   "note": "curves in the convex hull of their control points (see C104), control points not all equal"
  },
  {
   "property": "C106",
   "status": "partial",
   "theorems": [
    "C106_arc_refuted",
    "C106_stoke_refuted"
   ],
   "note": "FALSE of the code for every curve: the unknown operator stoke stops the program before anything is painted; even with it repaired the control points are not painted, arc is missing (both proved for all curves, with a small PostScript interpreter as specification); the polyline is right once stoke is repaired"
  },
  {
   "property": "C107",
   "status": "proved",
   "theorems": [
    "C107_bezier_patch",
    "C107_bspline_patch"
   ],
   "note": "initialized patches of degree at least one; B-spline patches with distinct knots more than 1e-16 apart; periodic directions at the wrapped parameter"
  },
  {
   "property": "C108",
   "status": "partial",
   "theorems": [
    "C108_cubic",
    "C108_inflections",
    "C108_knot_actual",
    "C108_knot_refuted",
    "C108_pieces",
    "C108_singularities"
   ],
   "note": "proved for cubic inflections (polynomials with a clear number of roots), and for every result of inflections of degree 4 to 10 and singularities of degree 3 to 6 (leading coefficient at least 1e-8, Eigen lists exactly the eigenvalues).  FALSE when the interval begins or ends at an inner knot for degree 4 and more (singularities: 3 and more): the piece touched in one point is analysed on an empty interval, which the root finder asserts against (refuted; proved that there is never a result)"
  },
  {
   "property": "C109",
   "status": "proved",
   "theorems": [
    "C109_bezier_double",
    "C109_bezier_float",
    "C109_exact_refuted",
    "C109_special_degrees"
   ],
   "note": "generic de Casteljau code (Bezier.h) in double and float; the exact statement without error is refuted; the classes for degrees 0 to 3 compute the same bits (double)"
  },
  {
   "property": "C11",
   "status": "partial",
   "theorems": [
    "C11_bezier_periodic_shift",
    "C11_bezier_periodic_value",
    "C11_bspline_periodic_shift",
    "C11_bspline_periodic_value",
    "C11_linear_periodic_refuted"
   ],
   "note": "proved for the generic Bezier class, degrees 2,3 and for B-splines; FALSE for the degree 1 Bezier class, which ignores the periodic flag (Bezier.h:503-506)"
  },
  {
   "property": "C110",
   "status": "proved",
   "theorems": [
    "C110_bspline_double",
    "C110_bspline_float"
   ],
   "note": "non-periodic; the parameter is not the lower end of the domain when the first span is empty"
  },
  {
   "property": "C111",
   "status": "proved",
   "theorems": [
    "C111_bezier_end",
    "C111_bezier_start",
    "C111_bspline_end",
    "C111_bspline_start",
    "C111_split_junction"
   ],
   "note": "double; values of the end points (the sign of zero is not claimed), split junction bit for bit and also for infinities and NaN"
  },
  {
   "property": "C112",
   "status": "partial",
   "theorems": [
    "C112_any_parameter_partial",
    "C112_nan_refuted"
   ],
   "note": "proved for all parameters except NaN, and for NaN when the last span of the domain is not empty.  FALSE for NaN when it is empty (last knot repeated more than degree+1 times counted from the end): the span is past the last control point, which is asserted against (refuted)"
  },
  {
   "property": "C113",
   "status": "proved",
   "theorems": [
    "C113_derivative_double",
    "C113_derivative_float"
   ],
   "note": "generic class, double and float, non-periodic"
  },
  {
   "property": "C114",
   "status": "partial",
   "theorems": [
    "C114_bezier",
    "C114_bspline_above_partial",
    "C114_bspline_partial",
    "C114_fmod",
    "C114_wrap_any",
    "C114_wrap_partial",
    "C114_wrap_refuted"
   ],
   "note": "proved for Bezier curves, for B-splines whose domain begins at 0 with a non-empty span, and for every other domain at parameters from its lower end upwards.  FALSE below other domains: with the domain [-1, 3.4] the parameter just below -1 is wrapped to a number above 3.4, which fails the assertion at CurveBase.h:211 (refuted); C114_wrap_any shows that only parameters below the domain can fail so"
  },
  {
   "property": "C115",
   "status": "proved",
   "theorems": [
    "C115_bezier_double",
    "C115_nurbs_double",
    "C115_nurbs_float"
   ],
   "note": "non-periodic curves; Bezier in double, NURBS in double and float"
  },
  {
   "property": "C116",
   "status": "partial",
   "theorems": [
    "C116_ends_partial",
    "C116_heavy_refuted"
   ],
   "note": "proved when the end weight is 1.  FALSE for other weights: the point 0.1 with weight 3 comes out one bit off (refuted)"
  },
  {
   "property": "C117",
   "status": "proved",
   "theorems": [
    "C117_subdivide_double",
    "C117_subdivide_float"
   ],
   "note": "any sequence of cuts strictly inside (0,1); bounds for double and float"
  },
  {
   "property": "C118",
   "status": "proved",
   "theorems": [
    "C118_bezier_patch_double",
    "C118_bezier_patch_float"
   ],
   "note": "non-periodic patches, template degree -1 or equal to the degree; bounds for double and float"
  },
  {
   "property": "C119",
   "status": "proved",
   "theorems": [
    "C119_bspline_patch_double",
    "C119_bspline_patch_float"
   ],
   "note": "non-periodic patches, distinct knots at least 1e-15 apart; bounds for double and float"
  },
  {
   "property": "C12",
   "status": "proved",
   "theorems": [
    "C12_bezier_hodograph",
    "C12_bspline_hodograph"
   ],
   "note": "Bezier and B-spline; for periodic B-splines inside one period (the hodograph drops the periodic flag if the curve is not C1 closed)"
  },
  {
   "property": "C120",
   "status": "proved",
   "theorems": [
    "C120_derivative_double",
    "C120_derivative_float"
   ],
   "note": "non-periodic curves; the bound is relative to 2pM/h, h a distance between different knots"
  },
  {
   "property": "C121",
   "status": "proved",
   "theorems": [
    "C121_insert_double",
    "C121_insert_float"
   ],
   "note": "regular start and (first knot span not empty or t above the lower end), as for exact insertion.  The tolerance of in_domain is 2^-52 in the model for both formats; for float the code uses 2^-23, which only widens a test that is met here"
  },
  {
   "property": "C122",
   "status": "proved",
   "theorems": [
    "C122_convert_double",
    "C122_convert_float"
   ],
   "note": "first knot span not empty; at the inner end of an interval only where the curve is continuous (multiplicity at most the degree).  The bound charges p rounds for every knot, which is not sharp"
  },
  {
   "property": "C123",
   "status": "proved",
   "theorems": [
    "C123_split_double",
    "C123_split_float"
   ],
   "note": "t strictly inside the domain (at the ends the code returns the curve itself); knots more than 1e-16 apart"
  },
  {
   "property": "C124",
   "status": "proved",
   "theorems": [
    "C124_elevate_double",
    "C124_elevate_float"
   ],
   "note": "generic class; the weights i/(n+1) are rounded"
  },
  {
   "property": "C125",
   "status": "proved",
   "theorems": [
    "C125_subcurves_double",
    "C125_subcurves_float"
   ],
   "note": "generic class; [nested] composes the affine parameter maps exactly"
  },
  {
   "property": "C126",
   "status": "proved",
   "theorems": [
    "C126_2nd_derivative_double",
    "C126_2nd_derivative_float"
   ],
   "note": "generic class, not periodic"
  },
  {
   "property": "C127",
   "status": "proved",
   "theorems": [
    "C127_2nd_derivative_double",
    "C127_2nd_derivative_float"
   ],
   "note": "not periodic; knots closer than 1e-15 are excluded because the code treats differences up to 1e-16 as zero"
  },
  {
   "property": "C128",
   "status": "proved",
   "theorems": [
    "C128_rational_patch_double",
    "C128_rational_patch_float"
   ],
   "note": "no periodic directions"
  },
  {
   "property": "C129",
   "status": "proved",
   "theorems": [
    "C129_nurbs_patch_double",
    "C129_nurbs_patch_float"
   ],
   "note": "no periodic directions; knots closer than 1e-15 are excluded because the code treats differences up to 1e-16 as zero"
  },
  {
   "property": "C13",
   "status": "proved",
   "theorems": [
    "C13_locate_span"
   ],
   "note": ""
  },
  {
   "property": "C130",
   "status": "proved",
   "theorems": [
    "C130_patch_derivative_double",
    "C130_patch_derivative_float"
   ],
   "note": "no periodic directions; the template degrees 0 to 3, whose classes compute the derivative by other formulas, are C132"
  },
  {
   "property": "C131",
   "status": "proved",
   "theorems": [
    "C131_static_derivative_double",
    "C131_static_derivative_float"
   ],
   "note": "curves that are not periodic"
  },
  {
   "property": "C132",
   "status": "proved",
   "theorems": [
    "C132_static_patch_double",
    "C132_static_patch_float"
   ],
   "note": "no periodic directions; the template degree equals the degree (the other template degrees are C130)"
  },
  {
   "property": "C133",
   "status": "proved",
   "theorems": [
    "C133_patch_2nd_derivative_double",
    "C133_patch_2nd_derivative_float"
   ],
   "note": "no periodic directions; the template degrees 0 to 3 in the direction of the derivative and the mixed derivative uv are not covered"
  },
  {
   "property": "C14",
   "status": "proved",
   "theorems": [
    "C14_bspline_evaluate"
   ],
   "note": "hypotheses on the knots are part of the statement; the excluded case is C57"
  },
  {
   "property": "C15",
   "status": "proved",
   "theorems": [
    "C15_local_control"
   ],
   "note": "no hypothesis on the spacing of the knots"
  },
  {
   "property": "C16",
   "status": "proved",
   "theorems": [
    "C16_bspline_derivatives"
   ],
   "note": ""
  },
  {
   "property": "C17",
   "status": "proved",
   "theorems": [
    "C17_insert_knot"
   ],
   "note": "hypotheses on the knots are part of the statement; the excluded case is C58"
  },
  {
   "property": "C18",
   "status": "partial",
   "theorems": [
    "C18_bound",
    "C18_default_tolerance",
    "C18_ends",
    "C18_ends_any_tolerance",
    "C18_exact",
    "C18_explicit_tolerance",
    "C18_undo",
    "C18_undo_any_tolerance",
    "C18_undo_ends_refuted"
   ],
   "note": "proved for t inside the domain with multiplicity at most p, num_copies at most the multiplicity and a tolerance of any sign: undoing an insertion, a bound count*tol on control points and values, exactness at tolerance 0; a negative tolerance is a millionth of the longest side of the box of the control points. REFUTED at the two ends of the domain, where remove_knot reports 0 copies for every curve (BSplineBase.h:209-221), so an insertion there is never undone. More copies than there are: C91"
  },
  {
   "property": "C19",
   "status": "proved",
   "theorems": [
    "C19_convert_to_Bezier"
   ],
   "note": "hypotheses on the knots are part of the statement; an empty first span is C58"
  },
  {
   "property": "C20",
   "status": "proved",
   "theorems": [
    "C20_split",
    "C20_split_ends",
    "C20_split_outside"
   ],
   "note": "degree at least 1 (degree 0 is C60); parameters within 2^-52 outside the domain are C61"
  },
  {
   "property": "C21",
   "status": "proved",
   "theorems": [
    "C21_clamped_end",
    "C21_clamped_start"
   ],
   "note": ""
  },
  {
   "property": "C22",
   "status": "partial",
   "theorems": [
    "C22_combine_partial",
    "C22_combine_refuted",
    "C22_convert_periodic",
    "C22_convert_to_bspline",
    "C22_recombine_partial"
   ],
   "note": "proved: convert_to_BSpline of a curve that is not periodic, equal on [0,1] (periodic: equal on [0,1), the flag is dropped, at 1 the two end points differ); combine_Beziers of q+1-point pieces, q>=1, joined within less than 2^-52, and recombination of the pieces of a B-spline: valid curve, same degree and domain, values within k*q*2^-52. REFUTED with equality: combine_Beziers removes knots with tolerance 2^-52, a tent of height 2^-52 is flattened. Degree 0 pieces fail an assertion of remove_knot"
  },
  {
   "property": "C23",
   "status": "proved",
   "theorems": [
    "C23_nurbs",
    "C23_rational_bezier"
   ],
   "note": "also: a zero denominator is a division by zero"
  },
  {
   "property": "C24",
   "status": "proved",
   "theorems": [
    "C24_nurbs",
    "C24_rational_bezier"
   ],
   "note": "NURBS: on the span set containing t (one sided at knots), as in C16"
  },
  {
   "property": "C25",
   "status": "proved",
   "theorems": [
    "C25_nurbs_history",
    "C25_nurbs_setters",
    "C25_rational_bezier_history"
   ],
   "note": "every list of calls; RationalBezier also total for indices in range"
  },
  {
   "property": "C26",
   "status": "partial",
   "theorems": [
    "C26_bulk_points_refuted",
    "C26_bulk_setters_no_effect",
    "C26_bulk_weights_refuted"
   ],
   "note": "FALSE of the code: the bulk setters do not touch the homogeneous curve used by evaluate (RationalBezier.h, NURBS.h set_control_points/set_weights/set_knots inherited), so they have no effect until initialize(); refuted and the actual behaviour proved"
  },
  {
   "property": "C27",
   "status": "proved",
   "theorems": [
    "C27_bezier_equal",
    "C27_bezier_scale",
    "C27_nurbs_equal",
    "C27_nurbs_scale"
   ],
   "note": ""
  },
  {
   "property": "C28",
   "status": "proved",
   "theorems": [
    "C28_bezier_to_rational",
    "C28_bspline_to_nurbs",
    "C28_nurbs_to_bspline",
    "C28_rational_to_bezier",
    "C55_convert_to_rational_bezier"
   ],
   "note": "curves without the periodic flag (the flag is lost, C62); unequal weights are rejected by an exception"
  },
  {
   "property": "C29",
   "status": "proved",
   "theorems": [
    "C29_cross_3d",
    "C29_curvature",
    "C29_curvature_2d",
    "C29_curvature_speed"
   ],
   "note": ""
  },
  {
   "property": "C30",
   "status": "partial",
   "theorems": [
    "C30_constant",
    "C30_double_root_refuted",
    "C30_drop_linear",
    "C30_drop_quadratic",
    "C30_linear",
    "C30_quadratic_partial",
    "C30_range"
   ],
   "note": "degrees 0, 1, 2: sound and complete except for discriminants in (0, eps), which the code treats as a double root: the reported value need not be a root (refuted).  A quadratic or linear coefficient below eps is dropped (proved).  Higher degrees: C97"
  },
  {
   "property": "C31",
   "status": "proved",
   "theorems": [
    "C31_evaluate"
   ],
   "note": "any template/dynamic degree; periodic directions wrap (a periodic direction of template degree 1 is excluded, see C11)"
  },
  {
   "property": "C32",
   "status": "proved",
   "theorems": [
    "C32_derivatives"
   ],
   "note": "all five derivatives, both orders of the mixed one"
  },
  {
   "property": "C33",
   "status": "proved",
   "theorems": [
    "C33_split",
    "C33_split_border",
    "C33_split_u",
    "C33_split_v"
   ],
   "note": "patches whose template degrees are their degrees; dynamic degrees are C65"
  },
  {
   "property": "C34",
   "status": "partial",
   "theorems": [
    "C34_subpatch_actual",
    "C34_subpatch_partial",
    "C34_subpatch_refuted"
   ],
   "note": "FALSE of the code: subpatch does not rescale u_max, v_max after the first split (BezierPatch.h subpatch); refuted with a witness, the actual value proved, and the claim proved when the rectangle touches a border in each direction"
  },
  {
   "property": "C35",
   "status": "proved",
   "theorems": [
    "C35_evaluate"
   ],
   "note": "any degrees, knots and grid; periodic directions wrap; the lower end of the domain is excluded if its first span is empty; distinct knots differ by more than 1e-16 (the threshold in the code)"
  },
  {
   "property": "C36",
   "status": "partial",
   "theorems": [
    "C36_nurbs_knot_actual",
    "C36_nurbs_point_actual",
    "C36_nurbs_setter_refuted",
    "C36_nurbs_setters_partial",
    "C36_nurbs_weight_actual",
    "C36_setter_actual",
    "C36_setter_partial",
    "C36_setter_refuted"
   ],
   "note": "FALSE of the code: set_control_point does not refresh the iso curves cached by initialize(), evaluate keeps the old value; refuted with a witness, the stale behaviour proved in general, and the claim proved when initialize() is called again.  Same for NURBSPatch (point and weight always, a knot in the cached direction)"
  },
  {
   "property": "C37",
   "status": "partial",
   "theorems": [
    "C37_nurbs_derivatives_partial",
    "C37_nurbs_evaluate",
    "C37_rational_bezier_derivatives_partial",
    "C37_rational_bezier_evaluate",
    "C37_second_derivative_actual",
    "C37_second_derivative_refuted"
   ],
   "note": "values, first derivatives and (denominator above 2^-52) second derivatives proved for both classes, any degrees, periodic directions included; the second derivative accessors return zero for a denominator in (0, 2^-52] (RationalBezierPatch.h:72-135): refuted with a witness and proved in general.  NURBS mixed derivative as in C66"
  },
  {
   "property": "C38",
   "status": "partial",
   "theorems": [
    "C38_bezier_patch_approx",
    "C38_bspline_patch_approx",
    "C38_bspline_point_range",
    "C38_bspline_range_partial",
    "C38_curve_range_partial",
    "C38_curve_range_refuted",
    "C38_nurbs_patch_approx",
    "C38_patch",
    "C38_patch_approx",
    "C38_patch_guess",
    "C38_patch_guess_asserts",
    "C38_rational_patch_approx"
   ],
   "note": "proved for every patch (arbitrary functions), the overrides of BezierPatch, BSplinePatch, NURBSPatch and RationalBezierPatch, and for curves and B-splines when the squared distances do not overflow; FALSE for curves otherwise and for B-splines over a range [t,t]: the search starts from 0.0, not from a parameter of the range (refuted)"
  },
  {
   "property": "C39",
   "status": "proved",
   "theorems": [
    "C39_bezier1",
    "C39_degenerate",
    "C39_line",
    "C39_line_domain"
   ],
   "note": "a zero direction gives a division by zero (C39_degenerate)"
  },
  {
   "property": "C40",
   "status": "partial",
   "theorems": [
    "C40_circle_derivatives",
    "C40_circle_inverse_partial",
    "C40_circle_inverse_refuted",
    "C40_circle_nearest",
    "C40_circle_points",
    "C40_circle_range",
    "C40_ellipse_derivatives",
    "C40_ellipse_equal_radii_partial",
    "C40_ellipse_fixed_point_partial",
    "C40_ellipse_inverse_refuted",
    "C40_ellipse_large_refuted",
    "C40_ellipse_points",
    "C40_ellipse_range"
   ],
   "note": "points and derivatives proved for both.  Circle: nearest point and round trip proved for ranges starting at -pi or above; FALSE below (the loop only adds turns), refuted.  Ellipse: range of the result proved, nearest point for equal radii and fixed points for unequal ones; FALSE for ranges starting below 0 and for large ellipses, where an assertion on the curvature fails (refuted)"
  },
  {
   "property": "C41",
   "status": "partial",
   "theorems": [
    "C41_cone_derivatives",
    "C41_cone_inverse_partial",
    "C41_cone_inverse_refuted",
    "C41_cone_nearest",
    "C41_cone_points",
    "C41_cylinder_derivatives",
    "C41_cylinder_inverse",
    "C41_cylinder_nearest",
    "C41_cylinder_points",
    "C41_plane_derivatives",
    "C41_plane_inverse",
    "C41_plane_nearest",
    "C41_plane_points",
    "C41_sphere_derivatives",
    "C41_sphere_inverse",
    "C41_sphere_nearest",
    "C41_sphere_points",
    "C41_torus_derivatives",
    "C41_torus_inverse_partial",
    "C41_torus_inverse_refuted",
    "C41_torus_nearest",
    "C41_torus_points"
   ],
   "note": "points, derivatives, nearest point and round trip proved for plane (orthogonal rows), cylinder, cone with non-negative radius, sphere with v in [-pi/2, pi/2], torus with minor <= major radius; FALSE for a cone beyond its apex and for a torus with minor > major radius (refuted)"
  },
  {
   "property": "C42",
   "status": "partial",
   "theorems": [
    "C42_extrusion_derivatives",
    "C42_extrusion_inverse_actual",
    "C42_extrusion_inverse_partial",
    "C42_extrusion_location_refuted",
    "C42_extrusion_skew_refuted",
    "C42_offset_derivatives",
    "C42_offset_duu_partial",
    "C42_offset_duv_partial",
    "C42_offset_dvv_partial",
    "C42_offset_inverse_partial",
    "C42_offset_points",
    "C42_offset_second_refuted",
    "C42_revolution_derivatives",
    "C42_revolution_inverse_partial"
   ],
   "note": "points and all derivatives proved for extrusion and revolution over any profile, offset points and first derivatives over any base patch; inverse evaluation proved for flat profiles and half plane profiles. FALSE in general: the extrusion inverse ignores the location when it projects on the direction, twenty alternations do not suffice for a leaning profile (and convergence is reported all the same), and the offset's second derivatives are central differences (refuted; exact up to the step)"
  },
  {
   "property": "C43",
   "status": "proved",
   "theorems": [
    "C43_clip"
   ],
   "note": "positive period, non-empty range"
  },
  {
   "property": "C44",
   "status": "proved",
   "theorems": [
    "C44_indices",
    "C44_partition",
    "C44_weight"
   ],
   "note": "all dimensions and degrees: exact enumeration, order, count, and multinomial theorem"
  },
  {
   "property": "C45",
   "status": "proved",
   "theorems": [
    "C45_derivative",
    "C45_elevate",
    "C45_evaluate",
    "C45_hull",
    "C45_ordinates",
    "C45_unset"
   ],
   "note": "all dimensions, degrees, ordinates and points; the value also equals de Casteljau's recursion; elevation for barycentric coordinates with sum one"
  },
  {
   "property": "C46",
   "status": "partial",
   "theorems": [
    "C46_adaptive",
    "C46_range_ends",
    "C46_range_refuted",
    "C46_uniform_domain"
   ],
   "note": "uniform in the domain and adaptive proved (adaptive: whenever the recursion returns; it has no bound); FALSE for UNIFORM_RANGE on a part of the domain: inverse_arc_length counts from the start of the curve, samples fall outside the part (refuted)"
  },
  {
   "property": "C47",
   "status": "partial",
   "theorems": [
    "C47_additive_partial",
    "C47_empty_range",
    "C47_from_start_partial",
    "C47_length_refuted",
    "C47_level0_partial",
    "C47_patch_length_refuted",
    "C47_patch_level0_partial",
    "C47_proportional_partial",
    "C47_start"
   ],
   "note": "FALSE of the code: the refinement loop of romberg (arc_length.h:157-160) leaves out the last new midpoint, so the length of every straight constant speed curve comes out too small at every level >= 1 and tolerance (refuted in general).  Proved: exact at level 0, proportional to the true length and additive when the tolerance does not stop the refinement; measured from the start of the domain; 0 over an empty range on every curve; the same for segments on flat patches"
  },
  {
   "property": "C48",
   "status": "proved",
   "theorems": [
    "C48_rule2",
    "C48_rule3",
    "C48_rule4",
    "C48_rule5"
   ],
   "note": "exact arithmetic; the code writes nodes and weights as expressions with std::sqrt"
  },
  {
   "property": "C49",
   "status": "partial",
   "theorems": [
    "C49_curve_patch",
    "C49_curve_plane",
    "C49_degenerate_refuted",
    "C49_patch_plane_partial"
   ],
   "note": "proved for curve/plane, curve/patch and patch/plane with a segment longer than 1e-12; FALSE for a degenerate segment, where the residual is tested without absolute value (intersect.h:94-96), refuted"
  },
  {
   "property": "C50",
   "status": "proved",
   "theorems": [
    "C50_identity",
    "C50_round_trip",
    "C50_saves"
   ],
   "note": "for any scalar type; the four classes with control points, lengths that fit the integer types; plane objects come back in space with third coordinate 0; objects that are not periodic come back identical (C89 for the rest); writing and reading the file itself (mshio) is not modelled"
  },
  {
   "property": "C51",
   "status": "partial",
   "theorems": [
    "C51_one_curve",
    "C51_patch",
    "C51_three_curves_refuted",
    "C51_three_patches_refuted",
    "C51_two_curves_partial"
   ],
   "note": "proved for one curve, two curves and a patch; FALSE for every list of three or more curves or patches: count += export(...) adds an offset that already contains the count (save_obj.h:81-90, 103-112)"
  },
  {
   "property": "C52",
   "status": "partial",
   "theorems": [
    "C52_inflection",
    "C52_rational_inflection",
    "C52_rational_singularity",
    "C52_rational_tangent_actual",
    "C52_rational_tangent_refuted",
    "C52_singularity",
    "C52_tangent"
   ],
   "note": "proved for Bezier curves of every supported degree (2-10 inflection and tangent, 2-6 singularity) and rational ones (inflection 2-4, singularity 2-3); FALSE for the tangent polynomial of rational curves, which ignores the weights (auto_match_tangent_RationalBezier.h), refuted"
  },
  {
   "property": "C53",
   "status": "proved",
   "theorems": [
    "C53_is_closed"
   ],
   "note": ""
  },
  {
   "property": "C54",
   "status": "partial",
   "theorems": [
    "C54_bspline_elevate_partial",
    "C54_bspline_elevate_refuted",
    "C54_degree_0",
    "C54_nurbs_elevate_partial",
    "C54_nurbs_elevate_refuted"
   ],
   "note": "proved for p>=1, nonempty first span and interior multiplicities at most p: degree p+1, same domain and flag, values within k*(p+1)*2^-52 (k distinct interior knots; exact for a single piece), periodic curves at all parameters; degree 0 throws; NURBS, when elevation succeeds: same, with the bound carried through the division. REFUTED with equality (tent of height 2^-51) and for NURBS with positive weights (elevated weights 1,0,0,1: division by zero in set_homogeneous)"
  },
  {
   "property": "C55",
   "status": "proved",
   "theorems": [
    "C55_convert_to_rational_bezier",
    "C55_insert_knot",
    "C55_split"
   ],
   "note": "positive weights; hypotheses on knots as in C17, C19, C20"
  },
  {
   "property": "C56",
   "status": "partial",
   "theorems": [
    "C56_free_split_ub_refuted"
   ],
   "note": "FALSE of the code: for t within 2^-52 outside [0,1] split(Bezier,t) indexes element 1 of a one element vector (split.h:28-29)"
  },
  {
   "property": "C57",
   "status": "partial",
   "theorems": [
    "C57_evaluate_overfull_start_refuted"
   ],
   "note": "FALSE of the code: locate_span returns the first span of the domain for t<=lower without skipping empty spans (BSplineBase.h:311); refuted with degree 1, knots 0,0,0,1,2,3. The true part is C14"
  },
  {
   "property": "C58",
   "status": "partial",
   "theorems": [
    "C58_convert_at_start_refuted",
    "C58_insert_at_start_refuted"
   ],
   "note": "FALSE of the code: for knots[p]=knots[p+1]=lower bound the span index handed to insert_knot is the first copy, so the multiplicity is counted right but the affected control points are off; refuted for a cubic. The true part is C17"
  },
  {
   "property": "C60",
   "status": "partial",
   "theorems": [
    "C60_split_degree_0_refuted"
   ],
   "note": "FALSE of the code: with degree 0 no knot is inserted, so the pieces end at the neighbouring knots and the span containing t is lost (split.h:64-98); refuted. The true part is C20"
  },
  {
   "property": "C61",
   "status": "partial",
   "theorems": [
    "C61_insert_below_domain_refuted"
   ],
   "note": "FALSE of the code: t up to 2^-52 below the domain passes in_domain, and the knot t is inserted after index p although it is smaller (BSplineBase.h:137-160); refuted. The true part is C17"
  },
  {
   "property": "C62",
   "status": "partial",
   "theorems": [
    "C62_bezier_to_rational_refuted",
    "C62_bspline_to_nurbs_refuted",
    "C62_nurbs_to_bspline_refuted",
    "C62_rational_to_bezier_refuted"
   ],
   "note": "FALSE of the code: conversion.h copies points, knots and weights but not the periodic flag; refuted for all four conversions. The true part is C28"
  },
  {
   "property": "C63",
   "status": "proved",
   "theorems": [
    "C63_elevate",
    "C63_split"
   ],
   "note": ""
  },
  {
   "property": "C64",
   "status": "proved",
   "theorems": [
    "C64_nurbs",
    "C64_rational_bezier"
   ],
   "note": ""
  },
  {
   "property": "C65",
   "status": "partial",
   "theorems": [
    "C65_split_dynamic_refuted"
   ],
   "note": "FALSE of the code: the pieces are default constructed and keep degree -1 when the template degree is dynamic (BezierPatch.h:364-369); every evaluation of a piece fails"
  },
  {
   "property": "C66",
   "status": "proved",
   "theorems": [
    "C66_derivatives",
    "C66_spans_cover"
   ],
   "note": "first and second derivatives; the mixed one when no knot other than the first and last has multiplicity above the degree (compute_du_patch/compute_dv_patch divide by such spans: NonFinite in the model; the affected rows belong to empty spans)"
  },
  {
   "property": "C67",
   "status": "proved",
   "theorems": [
    "C67_split",
    "C67_split_ends",
    "C67_split_outside",
    "C67_split_u",
    "C67_split_v"
   ],
   "note": "regular patches (first span of each direction non-empty, distinct knots more than 1e-16 apart), degrees >= 1 (degree 0 fails as in C60); split_u builds its exception without throwing it but the split of the iso curves throws"
  },
  {
   "property": "C68",
   "status": "partial",
   "theorems": [
    "C68_subpatch_bad_range",
    "C68_subpatch_equal_bounds",
    "C68_subpatch_equal_refuted",
    "C68_subpatch_partial"
   ],
   "note": "proved for u0<u1, v0<v1 more than 1e-16 apart, and for rejected ranges; FALSE for equal bounds, which the checks accept: the whole part above the bound is returned (refuted with a witness and proved in general)"
  },
  {
   "property": "C69",
   "status": "partial",
   "theorems": [
    "C69_false_not_worse_partial",
    "C69_flag_refuted"
   ],
   "note": "FALSE of the code: true is also returned when the iterations are used up (PatchBase.h:369-370); refuted with S=(u^3,v) after 20 iterations.  The second half is proved"
  },
  {
   "property": "C70",
   "status": "proved",
   "theorems": [
    "C70_bulk_setters_stale",
    "C70_history"
   ],
   "note": "degree 1 periodic static directions excluded (C11)"
  },
  {
   "property": "C71",
   "status": "partial",
   "theorems": [
    "C71_nurbs_split",
    "C71_nurbs_split_ends",
    "C71_nurbs_split_u",
    "C71_nurbs_split_v",
    "C71_nurbs_subpatch",
    "C71_split",
    "C71_split_border",
    "C71_split_dynamic_refuted",
    "C71_split_u",
    "C71_split_v",
    "C71_subpatch_actual",
    "C71_subpatch_partial",
    "C71_subpatch_refuted"
   ],
   "note": "proved for NURBS patches (regular, as C67) and for splits of rational Bezier patches with static degrees; FALSE for dynamic degrees (split is undefined behaviour) and for rational Bezier subpatch, which has the scaling error of C34 (refuted, actual value proved, and the border case proved)"
  },
  {
   "property": "C72",
   "status": "proved",
   "theorems": [
    "C72_bezier",
    "C72_bspline",
    "C72_nurbs",
    "C72_rational_bezier"
   ],
   "note": "Bezier patches: iso curves of the template degree class; B-spline and NURBS: valid knots as in C35"
  },
  {
   "property": "C73",
   "status": "proved",
   "theorems": [
    "C73_bezier",
    "C73_bspline",
    "C73_nurbs",
    "C73_rational_bezier"
   ],
   "note": "valid patches as in C31, C35, C37"
  },
  {
   "property": "C74",
   "status": "partial",
   "theorems": [
    "C74_curve_domain_refuted",
    "C74_curve_refuted",
    "C74_patch_corners"
   ],
   "note": "patches proved (also C51_patch: the whole grid); FALSE for curves: export_obj evaluates at i/N in [0,1), whatever the domain, and never at the end"
  },
  {
   "property": "C75",
   "status": "partial",
   "theorems": [
    "C75_affine_patch_plane",
    "C75_curve_plane_start",
    "C75_line_plane",
    "C75_newton_step",
    "C75_newton_system",
    "C75_patch_plane_start_refuted"
   ],
   "note": "curve/plane start value, exactness for lines, for affine patches against planes (any start value on the segment), and the curve/patch Newton system and step proved; FALSE for patch/plane: the start value is converted to the wrong end of the segment (intersect.h:101-104), refuted"
  },
  {
   "property": "C76",
   "status": "proved",
   "theorems": [
    "C76_bezier",
    "C76_bspline",
    "C76_nurbs",
    "C76_rational_bezier"
   ],
   "note": "any eigenvalue solver; B-spline and NURBS with knots further apart than 1e-16"
  },
  {
   "property": "C77",
   "status": "partial",
   "theorems": [
    "C77_cubic_inflections_partial",
    "C77_small_curve_refuted"
   ],
   "note": "proved when the polynomial is not within the tolerance 1e-8 of a lower degree or a double root; FALSE in general: the tolerance is absolute, a curve of size 1e-6 loses its inflection (refuted)"
  },
  {
   "property": "C78",
   "status": "partial",
   "theorems": [
    "C78_quadratic_singularities_partial"
   ],
   "note": "proved when the squared second derivative is at least 1e-8 (absolute tolerance); constant curves throw (C80)"
  },
  {
   "property": "C79",
   "status": "partial",
   "theorems": [
    "C79_cubic_partial",
    "C79_quadratic_partial"
   ],
   "note": "proved for end tangents longer than 1e-8 and polynomials clear of the absolute tolerance 1e-8; otherwise the code returns the midpoint or an empty list by design"
  },
  {
   "property": "C80",
   "status": "partial",
   "theorems": [
    "C80_caught",
    "C80_constant_refuted",
    "C80_linear_refuted"
   ],
   "note": "inflections: proved; FALSE for singularities: a constant curve throws infinite_root_error, a generic curve of degree one throws not_implemented_error (refuted)"
  },
  {
   "property": "C81",
   "status": "partial",
   "theorems": [
    "C81_ellipse_refuted",
    "C81_plane_refuted",
    "C81_sphere_refuted"
   ],
   "note": "FALSE of the code: Plane::initialize does not check its frame and the inverse assumes orthogonal rows; Ellipse::initialize checks only that the rows are orthogonal and the inverse takes the square root of a negative number; the sphere inverse does not know v outside [-pi/2, pi/2] (each refuted with a witness)"
  },
  {
   "property": "C82",
   "status": "partial",
   "theorems": [
    "C82_circle",
    "C82_degenerate_refuted",
    "C82_ellipse",
    "C82_sphere_refuted",
    "C82_surfaces"
   ],
   "note": "exact condition proved for every class; FALSE for empty ranges (zero turns count as periodic) and for the sphere, which is marked periodic in v from pole to pole although the poles differ (refuted)"
  },
  {
   "property": "C83",
   "status": "partial",
   "theorems": [
    "C83_extrusion",
    "C83_null_profile",
    "C83_offset_refuted",
    "C83_revolution"
   ],
   "note": "exact condition proved for extrusion and revolution; FALSE for the offset patch, whose initialize only ever sets its flags (refuted by initialize, set range, initialize)"
  },
  {
   "property": "C84",
   "status": "proved",
   "theorems": [
    "C84_fit",
    "C84_invertible"
   ],
   "note": "invertibility proved with explicit Lagrange polynomials of the lattice; Eigen's inverse() is assumed to return a right inverse of this matrix, which exists"
  },
  {
   "property": "C85",
   "status": "partial",
   "theorems": [
    "C85_control_points_partial",
    "C85_degree_zero_refuted"
   ],
   "note": "proved for degree at least one; FALSE at degree 0, where the control point is the zero vector (refuted)"
  },
  {
   "property": "C86",
   "status": "proved",
   "theorems": [
    "C86_mesh",
    "C86_recommended",
    "C86_saves"
   ],
   "note": "counts as recommended by the four classes with control points (at least 2, C86_recommended)"
  },
  {
   "property": "C87",
   "status": "partial",
   "theorems": [
    "C87_actual",
    "C87_refuted"
   ],
   "note": "FALSE of the code: without patches min_node_tag is the number of curves (save_msh.h sets it to the tag), exact value proved; true with at least one patch"
  },
  {
   "property": "C88",
   "status": "partial",
   "theorems": [
    "C88_actual",
    "C88_partial",
    "C88_refuted"
   ],
   "note": "proved with at least one curve and one patch; FALSE for two or more patches and no curve: two patch sections (refuted, and C88_actual for all such lists)"
  },
  {
   "property": "C89",
   "status": "partial",
   "theorems": [
    "C89_closed_form_refuted",
    "C89_line_actual",
    "C89_line_refuted",
    "C89_periodic_actual",
    "C89_periodic_refuted"
   ],
   "note": "FALSE of the code: the periodic flag is never saved; one line, circle or ellipse makes load_msh throw for the whole file; a closed form patch is written as a Bezier patch without control points, which fails an assertion on loading.  The true part is C50"
  },
  {
   "property": "C90",
   "status": "partial",
   "theorems": [
    "C90_profile_refuted"
   ],
   "note": "FALSE of the code: a profile without control points (line, circle, ellipse) gives a count of 0 and the parameter 0/0 (refuted for every such profile; the revolution has the same count in v)"
  },
  {
   "property": "C91",
   "status": "partial",
   "theorems": [
    "C91_early_stop_partial",
    "C91_no_knot",
    "C91_other_knot_removed_refuted",
    "C91_out_of_range_refuted"
   ],
   "note": "FALSE of the code: the loop over num_copies (BSplineBase.h:221) does not look at the multiplicity. Asked for two copies of a simple removable knot it can remove the neighbouring knot as well, report 2, and move the curve by 1 at tolerance 0; or read before the first row of the control points. Refuted. True part proved: no harm if some existing copy cannot be removed, or if t is no knot; up to the multiplicity it is C18"
  },
  {
   "property": "C92",
   "status": "partial",
   "theorems": [
    "C92_bound_partial",
    "C92_undo",
    "C92_zero_weight_refuted"
   ],
   "note": "proved: undoing an insertion for every tolerance; degree, domain, knots and a bound carried through the division whenever removal succeeds (first span not empty). REFUTED: positive weights 1, 1/2, 1/2, 1 become 1, 0, 1 and set_homogeneous divides by zero"
  },
  {
   "property": "C93",
   "status": "partial",
   "theorems": [
    "C93_offset_refuted",
    "C93_patch_stable_partial",
    "C93_patch_start",
    "C93_patch_too_far_refuted",
    "C93_stable_partial",
    "C93_start_partial",
    "C93_too_far_refuted"
   ],
   "note": "FALSE of the code twice: the first guess l / L (arc_length.h:91) leaves out the start of the domain, so for a constant speed curve whose domain starts after 0 length 0 gives a parameter outside the domain for every number of iterations; and because of C47 every positive length gives a parameter too far along every constant speed curve over [0,1] and every segment on a flat patch (both refuted in general).  Proved: a result that one more iteration does not change has the requested computed length up to the tolerance; length 0 gives the start when the domain starts at 0, and the first end on every patch"
  },
  {
   "property": "C94",
   "status": "proved",
   "theorems": [
    "C94_bezier_fit",
    "C94_bezier_patch_fit",
    "C94_bspline_fit",
    "C94_bspline_patch_fit"
   ],
   "note": "Eigen's SVD solve is a parameter, assumed to return a least squares solution for the one matrix and right hand side it is called with; B-spline parameters in the domain, distinct knots more than 1e-16 apart; dynamic degree is C96"
  },
  {
   "property": "C95",
   "status": "partial",
   "theorems": [
    "C95_bezier_deform",
    "C95_bezier_patch_deform",
    "C95_bspline_deform",
    "C95_bspline_patch_deform",
    "C95_wrapped_refuted"
   ],
   "note": "proved for all four classes at parameters inside the domain (half open when periodic).  FALSE for periodic objects and parameters outside: the basis functions are evaluated at the parameter itself, the object at the wrapped one, so attainable changes are missed whatever the solver does (refuted)"
  },
  {
   "property": "C96",
   "status": "partial",
   "theorems": [
    "C96_bezier_deform_refuted",
    "C96_bezier_patch_fit_refuted",
    "C96_bspline_deform_refuted",
    "C96_bspline_patch_fit_refuted"
   ],
   "note": "FALSE of the code: with template degree -1 BSpline fails its assertion on every valid curve, Bezier::fit returns a curve without control points (every evaluation out of range) and deform adds matrices of different sizes, patches fail the degree assertion (all four proved in general)"
  },
  {
   "property": "C97",
   "status": "partial",
   "theorems": [
    "C97_complete",
    "C97_drop",
    "C97_near_real_refuted",
    "C97_reported",
    "C97_sound_partial"
   ],
   "note": "Eigen's solver is a parameter, assumed to list exactly the complex eigenvalues.  Proved: every real root in the interval is reported, everything reported is the real part of a complex root whose modulus is within eps of it, exact when no non-real root is that close.  FALSE in general: a complex root near the real axis is reported as a real root (refuted)"
  },
  {
   "property": "C98",
   "status": "proved",
   "theorems": [
    "C98_inflections",
    "C98_reduce",
    "C98_singularities"
   ],
   "note": "Eigen's solver is a parameter, assumed to list exactly the complex eigenvalues; leading coefficient at least 1e-8 (smaller ones are dropped by the code, C30/C77); reported values that are not zeros are those of C97"
  },
  {
   "property": "C99",
   "status": "partial",
   "theorems": [
    "C99_dimension",
    "C99_full_turn_refuted",
    "C99_oriented",
    "C99_retry",
    "C99_small_refuted",
    "C99_total_partial",
    "C99_unique"
   ],
   "note": "proved: oriented angle of the end tangents (after the retries, characterised exactly), which is the total turning when that is less than half a turn and the end tangents are at least machine epsilon long.  FALSE in general: a whole ellipse gives 0 instead of 2 pi, a small circle loses two percent (refuted)"
  }
 ]
}