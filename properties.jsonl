{"id": "C01", "title": "Bezier evaluation is the Bernstein combination", "statement": "For a non-periodic Bezier curve with control points P_0..P_n, evaluate(t) returns exactly sum_i C(n,i) t^i (1-t)^(n-i) P_i, and never fails, for every t (also outside [0,1]).", "quantifier": "every degree n>=0, every dimension, every choice of control points, every real t", "why_tests_cant": "degree, dimension, control points and parameter are unbounded/continuous; a test samples a few of each", "anchors": ["include/nanospline/Bezier.h: evaluate, deBoor, blossom"]}
{"id": "C02", "title": "Bezier end points are interpolated", "statement": "evaluate(0) is the first control point and evaluate(1) is the last control point of a non-periodic Bezier curve.", "quantifier": "every degree, dimension and choice of control points", "why_tests_cant": "all curves, not the handful in the tests", "anchors": ["include/nanospline/Bezier.h: evaluate"]}
{"id": "C03", "title": "Affine invariance", "statement": "Applying an affine map to the control points and then evaluating gives the image under that map of the evaluated point, for Bezier and B-spline curves.", "quantifier": "every affine map between spaces of any dimensions, every Bezier / B-spline curve, every parameter in the domain", "why_tests_cant": "universally quantified over maps and curves", "anchors": ["include/nanospline/Bezier.h: evaluate", "include/nanospline/BSpline.h: evaluate"]}
{"id": "C04", "title": "Convex hull property", "statement": "For t in the domain, evaluate(t) is a convex combination (non-negative weights that sum to one) of the control points of a Bezier curve; for a B-spline only of the degree+1 control points that belong to the knot span of t.", "quantifier": "every curve and every parameter in the domain", "why_tests_cant": "inequality over a continuum of parameters and of curves", "anchors": ["include/nanospline/Bezier.h: evaluate", "include/nanospline/BSpline.h: evaluate, deBoor", "include/nanospline/BSplineBase.h: locate_span"]}
{"id": "C05", "title": "Specialised low degree Bezier classes agree with the generic class", "statement": "For degrees 0,1,2,3 the hand written classes return the same evaluate, evaluate_derivative and evaluate_2nd_derivative as the generic implementation for the same non-periodic control points and parameter; for degrees 1,2,3 split produces the same control points for every split point.", "quantifier": "all control points, dimensions and parameters", "why_tests_cant": "equality of two implementations over a continuum", "anchors": ["include/nanospline/Bezier.h: Bezier<_,_,0..3,false>::evaluate, evaluate_derivative, evaluate_2nd_derivative, split"]}
{"id": "C06", "title": "Bezier derivatives are the true derivatives", "statement": "evaluate_derivative(t) is the derivative of t |-> evaluate(t), and evaluate_2nd_derivative(t) is the derivative of t |-> evaluate_derivative(t), for non-periodic Bezier curves of every degree.", "quantifier": "every degree, dimension, control points and real t", "why_tests_cant": "a limit statement; finite differences in a test only approximate it at sample points", "anchors": ["include/nanospline/Bezier.h: get_derivative_coefficients, evaluate_derivative, evaluate_2nd_derivative"]}
{"id": "C07", "title": "Splitting a Bezier curve reproduces it", "statement": "For 0<t<1 split(t) returns two curves of the same degree with left.evaluate(s)=evaluate(t*s) and right.evaluate(s)=evaluate(t+(1-t)*s) for all s; for any other t the result is the one-element list holding the curve itself.", "quantifier": "every degree, dimension, control points, split point and parameter", "why_tests_cant": "two continua of parameters and arbitrary degree", "anchors": ["include/nanospline/Bezier.h: split", "include/nanospline/CurveBase.h: is_split_point_valid", "include/nanospline/split.h: split"]}
{"id": "C08", "title": "Bezier subcurve reproduces the curve (generic class)", "statement": "For 0<=t0<=t1<=1, subcurve(t0,t1) returns a curve C with C.evaluate(s)=evaluate(t0+s*(t1-t0)) for all s; any other range throws invalid_setting_error.", "quantifier": "every degree (generic), all control points, all ranges", "why_tests_cant": "continuum of ranges and parameters", "anchors": ["include/nanospline/Bezier.h: subcurve (generic class)"]}
{"id": "C09", "title": "Cubic Bezier subcurve reproduces the curve", "statement": "For 0<=t0<=t1<=1 the specialised cubic class' subcurve(t0,t1) returns a curve C with C.evaluate(s)=evaluate(t0+s*(t1-t0)), as the generic class does.", "quantifier": "all control points, all ranges, all s", "why_tests_cant": "only sub-ranges touching 0 or 1 happen to work; only a universal statement exposes the others", "anchors": ["include/nanospline/Bezier.h: Bezier<_,_,3,false>::subcurve"]}
{"id": "C10", "title": "Degree elevation preserves the curve", "statement": "elevate_degree() returns a curve of degree n+1 with the same value at every parameter, and elevating repeatedly (any number of times) still does.", "quantifier": "every degree, dimension, control points, parameter, number of elevations", "why_tests_cant": "all degrees and all numbers of repetitions", "anchors": ["include/nanospline/Bezier.h: elevate_degree", "include/nanospline/RationalBezier.h: elevate_degree"]}
{"id": "C11", "title": "Periodic evaluation is periodic", "statement": "When the periodic flag is set, evaluate(t+k*period)=evaluate(t) for every real t and integer k, and equals the value of the non-periodic curve at the wrapped parameter lying in [lower,upper).", "quantifier": "every real t, every integer k, every curve whose domain is not empty", "why_tests_cant": "unbounded number of periods, both directions", "anchors": ["include/nanospline/CurveBase.h: unwrap_parameter", "include/nanospline/Bezier.h: evaluate", "include/nanospline/BSpline.h: evaluate"]}
{"id": "C12", "title": "Hodograph evaluates to the derivative", "statement": "compute_hodograph(curve).evaluate(t)=curve.evaluate_derivative(t) for Bezier and B-spline curves.", "quantifier": "every curve and parameter in the domain", "why_tests_cant": "two implementations compared on a continuum", "anchors": ["include/nanospline/hodograph.h: compute_hodograph"]}
{"id": "C13", "title": "The knot span search is correct and terminates", "statement": "For every valid knot vector (non-decreasing, non-empty domain) and every real t, locate_span terminates without an out of range access and returns an index s with p<=s<n. If t is in the domain, and the first span is not empty or t is not the domain start, then knots[s]<knots[s+1] and knots[s]<=t<=knots[s+1] where t=knots[s+1] only at the end of the domain; parameters before/after the domain are mapped to the first/last span.", "quantifier": "every knot vector, degree and parameter", "why_tests_cant": "binary search over arbitrary sorted data with repeated values", "anchors": ["include/nanospline/BSplineBase.h: locate_span"]}
{"id": "C14", "title": "B-spline evaluation is the Cox-de Boor sum", "statement": "evaluate(t) of a non-periodic B-spline whose different knots are more than 1e-16 apart returns sum_i N_{i,p}(t) P_i with N the Cox-de Boor basis of the knot vector, for every t in the domain (at the upper end: the left limit), and never fails. At the domain start this needs that not p+1 equal knots reach past knots[p] (see C57).", "quantifier": "every degree, dimension, valid knot vector, control points and parameter", "why_tests_cant": "unbounded degree and knot count; spans with repeated knots", "anchors": ["include/nanospline/BSpline.h: evaluate, deBoor, blossom, get_knot_span_control_points", "include/nanospline/BSplineBase.h: locate_span"]}
{"id": "C15", "title": "Local control", "statement": "Changing control point i of a B-spline does not change evaluate(t) for any t of the domain outside the closed interval [knots[i], knots[i+p+1]].", "quantifier": "every B-spline, index, new value and parameter", "why_tests_cant": "all indices, all replaced values", "anchors": ["include/nanospline/BSpline.h: evaluate", "include/nanospline/BSplineBase.h: set_control_point"]}
{"id": "C16", "title": "B-spline derivatives are the true derivatives", "statement": "Inside a knot span evaluate_derivative(t) is the derivative of evaluate at t and evaluate_2nd_derivative(t) the derivative of evaluate_derivative; at a knot they are the one-sided derivatives of the span that evaluate uses.", "quantifier": "every degree, dimension, valid knot vector, control points and parameter in the domain", "why_tests_cant": "limits, arbitrary degree", "anchors": ["include/nanospline/BSpline.h: evaluate_derivative, evaluate_2nd_derivative, get_derivative_coefficients"]}
{"id": "C17", "title": "Knot insertion preserves the curve", "statement": "insert_knot(t, k) for t in the domain with multiplicity(t)+k<=degree (knots more than 1e-16 apart; for t the domain start also knots[p]<knots[p+1], see C58) leaves evaluate unchanged at every parameter, adds exactly k copies of t to the knots (which stay sorted) and k control points.", "quantifier": "every valid B-spline, t, k and every evaluation parameter", "why_tests_cant": "every position, multiplicity, number of copies", "anchors": ["include/nanospline/BSplineBase.h: insert_knot, get_multiplicity"]}
{"id": "C18", "title": "Knot removal undoes knot insertion", "statement": "Removing the copies just inserted with insert_knot reports all of them removed and gives back the original knots and control points; when removal reports r copies removed with zero tolerance error the curve is unchanged.", "quantifier": "every valid B-spline, t, number of copies up to the multiplicity, and tolerance (a negative one stands for a millionth of the extent of the control points)", "why_tests_cant": "every history of insert followed by remove", "anchors": ["include/nanospline/BSplineBase.h: remove_knot, insert_knot"]}
{"id": "C19", "title": "Conversion of a B-spline to Bezier pieces is faithful", "statement": "convert_to_Bezier returns Bezier segments of the same degree and parameter bounds, which are exactly the knots of the domain in increasing order, such that segment i evaluated at (x-bound_i)/(bound_{i+1}-bound_i) equals the B-spline at x, for x from bound_i up to bound_{i+1} (included if it is the last one or a knot of multiplicity at most the degree).", "quantifier": "every valid B-spline whose first knot span is not empty and every parameter", "why_tests_cant": "arbitrary knot multiplicities and numbers of spans", "anchors": ["include/nanospline/BSpline.h: convert_to_Bezier", "include/nanospline/conversion.h: convert_to_Bezier"]}
{"id": "C20", "title": "Splitting a B-spline reproduces it", "statement": "For t strictly inside the domain, split(curve,t) returns two valid B-splines with domains [lower,t] and [t,upper] which agree with the curve at every parameter of their domain (the first piece at t itself provided the curve is continuous there, i.e. the multiplicity is at most the degree); at the ends of the domain it returns the curve; outside it throws.", "quantifier": "every valid B-spline of degree at least 1, split point and parameter", "why_tests_cant": "split on knots of any multiplicity and between knots", "anchors": ["include/nanospline/split.h: split(BSpline)"]}
{"id": "C21", "title": "Clamped B-splines interpolate their end points", "statement": "If knots 1..p (n..n+p-1) are all equal to the lower (upper) bound of the domain (and, at the end, knots[n-1]<knots[n]), evaluate at the lower (upper) bound is the first (last) control point.", "quantifier": "every clamped B-spline", "why_tests_cant": "all degrees and knot vectors", "anchors": ["include/nanospline/BSpline.h: evaluate"]}
{"id": "C22", "title": "Bezier to B-spline conversion and recombination", "statement": "convert_to_BSpline(bezier) evaluates to the same point at every t in [0,1]; combining the Bezier pieces of a B-spline (combine_Beziers) gives a B-spline with the same values.", "quantifier": "every Bezier curve / every list of C0-joined pieces", "why_tests_cant": "all degrees", "anchors": ["include/nanospline/conversion.h: convert_to_BSpline", "include/nanospline/BSpline.h: combine_Beziers"]}
{"id": "C23", "title": "Rational evaluation is the weighted average", "statement": "After initialize(), RationalBezier / NURBS evaluate(t) = (sum_i b_i(t) w_i P_i)/(sum_i b_i(t) w_i) whenever the denominator is not zero.", "quantifier": "every degree, dimension, control points, weights and parameter", "why_tests_cant": "continuum", "anchors": ["include/nanospline/RationalBezier.h: evaluate, initialize", "include/nanospline/NURBS.h: evaluate, initialize"]}
{"id": "C24", "title": "Rational derivatives are the true derivatives", "statement": "evaluate_derivative and evaluate_2nd_derivative of RationalBezier / NURBS are the first and second derivative of evaluate wherever the denominator is not zero.", "quantifier": "every rational curve and parameter", "why_tests_cant": "limits; quotient rule applied twice", "anchors": ["include/nanospline/RationalBezier.h: evaluate_derivative, evaluate_2nd_derivative", "include/nanospline/NURBS.h: evaluate_derivative, evaluate_2nd_derivative"]}
{"id": "C25", "title": "Element setters never let a rational curve go stale", "statement": "After initialize() and any sequence of set_control_point(i,p), set_weight(i,w) (and set_knot, insert_knot for NURBS), evaluate returns what a freshly initialised curve with the current control points, weights and knots returns, and the getters return the last values set.", "quantifier": "every finite history of calls", "why_tests_cant": "arbitrary operation histories", "anchors": ["include/nanospline/RationalBezier.h: set_control_point, set_weight, initialize", "include/nanospline/NURBS.h: set_control_point, set_weight, insert_knot, initialize"]}
{"id": "C26", "title": "Bulk setters take effect without another initialize", "statement": "After initialize(), calling the bulk setters set_control_points / set_weights makes evaluate reflect the new data.", "quantifier": "every history that ends in a bulk setter", "why_tests_cant": "stale state is only visible on particular histories", "anchors": ["include/nanospline/RationalBezier.h: set_weights", "include/nanospline/NURBS.h: set_weights", "include/nanospline/BezierBase.h: set_control_points"]}
{"id": "C27", "title": "Weight invariances of rational curves", "statement": "Scaling all weights by the same non-zero factor does not change evaluate; equal weights give the polynomial curve of the same control points.", "quantifier": "every rational curve, factor and parameter", "why_tests_cant": "continuum", "anchors": ["include/nanospline/RationalBezier.h: evaluate", "include/nanospline/NURBS.h: evaluate"]}
{"id": "C28", "title": "Conversions between curve classes preserve the curve", "statement": "Bezier->RationalBezier, RationalBezier->Bezier (equal weights), BSpline->NURBS, NURBS->BSpline (equal weights) and NURBS->RationalBezier pieces evaluate to the same points.", "quantifier": "every convertible curve and parameter", "why_tests_cant": "all degrees and data", "anchors": ["include/nanospline/conversion.h"]}
{"id": "C29", "title": "Curvature vector", "statement": "evaluate_curvature(t) is the zero vector when the velocity vanishes; otherwise it is orthogonal to the velocity and has the length |x'y''-y'x''|/|c'|^3 in 2D (|c' x c''|/|c'|^3 in 3D), and it does not depend on the parametrisation speed.", "quantifier": "every pair of first and second derivative vectors", "why_tests_cant": "continuum", "anchors": ["include/nanospline/CurveBase.h: evaluate_curvature"]}
{"id": "C30", "title": "Polynomial root finding of degree at most two is sound and complete", "statement": "For polynomials of degree 1 and 2 the root finder adds exactly the real roots in [t0,t1] (up to the documented epsilon on the discriminant and leading coefficient), in every coefficient configuration, and reports a vanishing constant polynomial by infinite_root_error.", "quantifier": "all real coefficients and intervals", "why_tests_cant": "case analysis over sign of discriminant and vanishing leading terms", "anchors": ["include/nanospline/PolynomialRootFinder.h"]}
{"id": "C31", "title": "Bezier patch evaluation is the tensor product Bernstein sum", "statement": "BezierPatch evaluate(u,v)=sum_ij B_i(u)B_j(v) P_ij for all degrees, regardless of which parameter direction is evaluated first.", "quantifier": "every pair of degrees, dimension, control grid, (u,v)", "why_tests_cant": "branch on degrees, continuum of parameters", "anchors": ["include/nanospline/BezierPatch.h: evaluate, compute_iso_curve_u, compute_iso_curve_v"]}
{"id": "C32", "title": "Bezier patch derivatives", "statement": "The partial derivatives (u,v,uu,vv,uv) returned by a BezierPatch are the partial derivatives of evaluate.", "quantifier": "every patch and parameter", "why_tests_cant": "limits", "anchors": ["include/nanospline/BezierPatch.h: evaluate_derivative_u, evaluate_derivative_v, evaluate_2nd_derivative_uu, _vv, _uv"]}
{"id": "C33", "title": "Bezier patch splitting reproduces the patch", "statement": "split_u, split_v and split return patches that agree with the original under the affine reparametrisation of each piece.", "quantifier": "every patch whose template degrees are its degrees (dynamic degrees: C65), split parameter and (u,v)", "why_tests_cant": "continuum", "anchors": ["include/nanospline/BezierPatch.h: split_u, split_v, split"]}
{"id": "C34", "title": "Bezier patch subpatch reproduces the patch", "statement": "For u_min<u_max and v_min<v_max inside [0,1], subpatch evaluated at (s,r) equals the patch at (u_min+s(u_max-u_min), v_min+r(v_max-v_min)).", "quantifier": "every patch, sub-rectangle and (s,r)", "why_tests_cant": "only rectangles touching the border work; a universal statement is needed to see it", "anchors": ["include/nanospline/BezierPatch.h: subpatch"]}
{"id": "C35", "title": "B-spline patch evaluation is the tensor product B-spline", "statement": "After initialize(), BSplinePatch evaluate(u,v) = sum_ij N_i(u) M_j(v) P_ij in the domain.", "quantifier": "every initialised patch and (u,v) in its domain", "why_tests_cant": "continuum, arbitrary degrees and knots", "anchors": ["include/nanospline/BSplinePatch.h: evaluate, initialize, compute_iso_curve_u, compute_iso_curve_v"]}
{"id": "C36", "title": "B-spline and NURBS patch setters take effect", "statement": "After set_control_point(i,j,p) on an initialised BSplinePatch/NURBSPatch, evaluate reflects the new control point.", "quantifier": "every history of initialize and setter calls", "why_tests_cant": "stale caches are only visible on particular histories", "anchors": ["include/nanospline/BSplinePatch.h: initialize, evaluate", "include/nanospline/PatchBase.h: set_control_point", "include/nanospline/NURBSPatch.h: set_control_point"]}
{"id": "C37", "title": "Rational patch evaluation and derivatives", "statement": "RationalBezierPatch/NURBSPatch evaluate is the weighted average of control points and the derivative accessors return its partial derivatives wherever the denominator is positive.", "quantifier": "every rational patch and parameter", "why_tests_cant": "quotient rules, continuum", "anchors": ["include/nanospline/RationalBezierPatch.h", "include/nanospline/NURBSPatch.h"]}
{"id": "C38", "title": "Inverse evaluation results respect the requested range", "statement": "inverse_evaluate / approximate_inverse_evaluate of curves and patches return parameters inside [lower,upper] (x [lower,upper]) whatever the query point, guess or curve.", "quantifier": "every query point, curve/patch (as an arbitrary function), range, sample count", "why_tests_cant": "an iterative search over arbitrary functions", "anchors": ["include/nanospline/CurveBase.h: approximate_inverse_evaluate, newton_raphson", "include/nanospline/PatchBase.h: approximate_inverse_evaluate, newton_raphson, inverse_evaluate", "include/nanospline/BSplineBase.h: approximate_inverse_evaluate", "include/nanospline/BezierPatch.h, BSplinePatch.h, NURBSPatch.h, RationalBezierPatch.h: approximate_inverse_evaluate"]}
{"id": "C39", "title": "Nearest point on a line segment is global", "statement": "approximate_inverse_evaluate of Line over [lower,upper], and inverse_evaluate of a degree 1 Bezier over [0,1], return a parameter of the range whose point is at least as close to the query as every other point of that range (non-degenerate segment).", "quantifier": "every segment, query point and range", "why_tests_cant": "minimality over a continuum", "anchors": ["include/nanospline/Line.h: approximate_inverse_evaluate", "include/nanospline/Bezier.h: Bezier<_,_,1,false>::inverse_evaluate"]}
{"id": "C40", "title": "Circle and ellipse", "statement": "Every evaluated point lies on the circle/ellipse; derivatives are the true derivatives; a point of the arc is mapped back by inverse evaluation to a parameter in range with the same point.", "quantifier": "every circle/ellipse, parameter range and parameter", "why_tests_cant": "trigonometric identities over a continuum; range wrap-around", "anchors": ["include/nanospline/Circle.h", "include/nanospline/Ellipse.h"]}
{"id": "C41", "title": "Plane, cylinder, cone, sphere and torus", "statement": "Evaluated points satisfy the implicit equation of the surface, the derivative accessors are the true partial derivatives, and inverse evaluation maps an evaluated point of the full parameter range back to the same point.", "quantifier": "every orthonormal frame, radii and parameters", "why_tests_cant": "trigonometric identities over a continuum", "anchors": ["include/nanospline/Plane.h", "include/nanospline/Cylinder.h", "include/nanospline/Cone.h", "include/nanospline/Sphere.h", "include/nanospline/Torus.h"]}
{"id": "C42", "title": "Revolution, extrusion and offset patches", "statement": "Evaluate follows the profile as specified (distance to axis / translation / distance along the unit normal) and the derivative accessors are the partial derivatives; extrusion inverse evaluation maps evaluated points back.", "quantifier": "every profile curve / base patch and parameter", "why_tests_cant": "profile is an arbitrary function", "anchors": ["include/nanospline/RevolutionPatch.h", "include/nanospline/ExtrusionPatch.h", "include/nanospline/OffsetPatch.h"]}
{"id": "C43", "title": "Periodic parameter clipping", "statement": "Clipping a parameter to a periodic range returns a value in [t_min,t_max] that differs from t by a whole number of periods if any such value exists, and otherwise an end point of the range that is nearest modulo the period.", "quantifier": "every real parameter, range and period", "why_tests_cant": "continuum and unbounded number of periods", "anchors": ["include/nanospline/PatchBase.h: clip_periodic_parameter, unwrap_parameter_u, unwrap_parameter_v"]}
{"id": "C44", "title": "Bezier simplex index enumeration and partition of unity", "statement": "The control point multi-indices enumerate every tuple of non-negative integers of the given sum exactly once, in lexicographically decreasing order and C(n+d,d) many; the Bernstein weights at barycentric coordinates sum to one.", "quantifier": "every simplex dimension and degree, every barycentric coordinate", "why_tests_cant": "unbounded dimension and degree", "anchors": ["include/nanospline/BezierSimplex.h: generate_multi_indices, choose, factorial, evaluate_bernstein"]}
{"id": "C45", "title": "Bezier simplex evaluation, elevation and derivative", "statement": "evaluate is the multivariate Bernstein sum; elevate_degree preserves it; evaluate_directional_derivative is the directional derivative.", "quantifier": "every dimension, degree, ordinates, point and direction", "why_tests_cant": "unbounded dimension and degree", "anchors": ["include/nanospline/BezierSimplex.h: evaluate, elevate_degree, evaluate_directional_derivative"]}
{"id": "C46", "title": "Uniform sampling covers the range", "statement": "sample(curve, N, UNIFORM_DOMAIN, lower, upper) returns N parameters, in increasing order, from lower to upper, equally spaced; adaptive sampling returns a sorted list containing both ends.", "quantifier": "every N, range and curve", "why_tests_cant": "arbitrary N and curve", "anchors": ["include/nanospline/sample.h"]}
{"id": "C47", "title": "Arc length", "statement": "arc_length of a straight constant speed curve over [t0,t1] is its length, is additive, and is independent of the tolerance requested.", "quantifier": "every constant speed curve, range, tolerance and level bound", "why_tests_cant": "needs every tolerance/level; the tests use loose tolerances on few curves", "anchors": ["include/nanospline/arc_length.h: arc_length, romberg"]}
{"id": "C48", "title": "Gauss-Legendre quadrature exactness", "statement": "The N point rule integrates every polynomial of degree up to 2N-1 exactly on every interval, for N=2..5 (up to the printed digits of the nodes).", "quantifier": "every polynomial and interval", "why_tests_cant": "continuum of polynomials", "anchors": ["include/nanospline/Quadrature.h"]}
{"id": "C49", "title": "Intersections reported as converged are intersections", "statement": "When intersect reports converged, the residual of the returned parameters is below the tolerance.", "quantifier": "every curve, patch, plane, start value, tolerance", "why_tests_cant": "iterative method over arbitrary functions", "anchors": ["include/nanospline/intersect.h"]}
{"id": "C50", "title": "MSH save/load round trip", "statement": "Loading what was saved gives back every Bezier, RationalBezier, BSpline and NURBS curve and patch with the same control points, weights, knots and degrees, in the same order.", "quantifier": "every list of curves and patches", "why_tests_cant": "arbitrary data", "anchors": ["include/nanospline/save_msh.h", "include/nanospline/load_msh.h"]}
{"id": "C51", "title": "OBJ export indices are valid", "statement": "Saving a list of curves to OBJ numbers the vertices so that each curve's line element refers exactly to the vertices written for that curve.", "quantifier": "every list of curves and sample count", "why_tests_cant": "arbitrary list length; wrong from the third curve on", "anchors": ["include/nanospline/save_obj.h"]}
{"id": "C52", "title": "Degree analysis polynomials", "statement": "The polynomials used to find inflections, singularities and tangent matches of (rational) Bezier curves of every supported degree are, up to a power of the denominator and the sign, the cross product of first and second derivative, the squared speed, and the inner product of the derivative with the direction's normal respectively.", "quantifier": "all control points and parameters", "why_tests_cant": "polynomial identities in many variables", "anchors": ["include/nanospline/internal/auto_inflection_Bezier.h", "include/nanospline/internal/auto_singularity_Bezier.h", "include/nanospline/internal/auto_match_tangent_Bezier.h"]}
{"id": "C53", "title": "Closedness test", "statement": "is_closed(order,tol) is true exactly when the end points, and for the higher orders the first / second derivatives at the ends, differ by less than the tolerance.", "quantifier": "every curve, order, tolerance", "why_tests_cant": "arbitrary curve and tolerance", "anchors": ["include/nanospline/CurveBase.h: is_closed"]}
{"id": "C54", "title": "B-spline degree elevation preserves the curve", "statement": "elevate_degree of a B-spline (and NURBS) returns a curve of degree p+1 with the same domain that evaluates to the same points.", "quantifier": "every valid B-spline and parameter", "why_tests_cant": "all knot configurations; depends on tolerance based knot removal", "anchors": ["include/nanospline/BSpline.h: elevate_degree, combine_Beziers", "include/nanospline/NURBS.h: elevate_degree"]}
{"id": "C55", "title": "NURBS knot operations preserve the curve", "statement": "NURBS insert_knot, split and convert_to_RationalBezier preserve the evaluated points, given positive weights.", "quantifier": "every valid NURBS curve, operation arguments and parameter", "why_tests_cant": "all knot configurations", "anchors": ["include/nanospline/NURBS.h: insert_knot, convert_to_RationalBezier", "include/nanospline/split.h: split(NURBS)"]}
{"id": "C56", "title": "Splitting never touches memory outside its results", "statement": "split(curve, t) either throws, or returns one or two curves, for every parameter t; it never reads outside the list of pieces.", "quantifier": "every curve and every real parameter", "why_tests_cant": "the failing band is one machine epsilon wide on each side of the domain", "anchors": ["include/nanospline/split.h: split(Bezier)", "include/nanospline/BezierBase.h: in_domain", "include/nanospline/Bezier.h: split"]}
{"id": "C57", "title": "Evaluation at the start of the domain for arbitrary multiplicity", "statement": "evaluate(lower bound) of a non-periodic valid B-spline is the Cox-de Boor sum there (the right limit of the curve) for every knot multiplicity at the domain start.", "quantifier": "every valid B-spline with knots more than 1e-16 apart", "why_tests_cant": "needs a knot vector with p+1 equal knots that are not the first p+1 ones", "anchors": ["include/nanospline/BSplineBase.h: locate_span", "include/nanospline/BSpline.h: evaluate"]}
{"id": "C58", "title": "Knot insertion and Bezier conversion at the start of the domain", "statement": "insert_knot(lower bound, k) with multiplicity+k<=degree does not change the curve, and the first Bezier segment of convert_to_Bezier starts at the curve's start point, for every valid B-spline, also when knots[p]=knots[p+1].", "quantifier": "every valid B-spline (continuous at the start of its domain)", "why_tests_cant": "needs a curve whose first knot span is empty, e.g. after inserting the domain start before", "anchors": ["include/nanospline/BSplineBase.h: insert_knot, locate_span", "include/nanospline/BSpline.h: convert_to_Bezier"]}
{"id": "C60", "title": "Splitting a piecewise constant B-spline", "statement": "For a B-spline of degree 0 and t strictly inside the domain, split(curve,t) returns two pieces whose domains are [lower,t] and [t,upper].", "quantifier": "every valid B-spline of degree 0 and every split point", "why_tests_cant": "degree 0 curves are constructed by no test of split", "anchors": ["include/nanospline/split.h: split(BSpline)"]}
{"id": "C61", "title": "Knot insertion within the domain tolerance", "statement": "For every parameter accepted by in_domain (which tolerates one machine epsilon on each side), insert_knot returns a curve whose knot vector is sorted.", "quantifier": "every valid B-spline and every accepted parameter", "why_tests_cant": "the failing band is one machine epsilon wide", "anchors": ["include/nanospline/BSplineBase.h: insert_knot, in_domain, locate_span"]}
{"id": "C62", "title": "Conversions keep the periodic flag", "statement": "convert_to_RationalBezier, convert_to_Bezier, convert_to_NURBS and convert_to_BSpline return a curve with the same periodic flag and the same values at every parameter, also for periodic curves.", "quantifier": "every convertible periodic curve", "why_tests_cant": "the conversion tests compare values inside the domain of non-periodic curves only", "anchors": ["include/nanospline/conversion.h:24-119"]}
{"id": "C63", "title": "Splitting and elevating rational Bezier curves preserves the curve", "statement": "For positive weights, split(RationalBezier,t) with 0<t<1 returns two initialised curves with positive weights that evaluate to c(t s) and c(t+(1-t)s) for every s, and RationalBezier::elevate_degree returns an initialised curve of one degree more with positive weights and the same values.", "quantifier": "every rational Bezier curve with positive weights, every split parameter, every evaluation parameter", "why_tests_cant": "tests sample a few weights", "anchors": ["include/nanospline/RationalBezier.h: elevate_degree, set_homogeneous", "include/nanospline/split.h:32-46"]}
{"id": "C64", "title": "Periodic rational evaluation is periodic", "statement": "For a rational curve with the periodic flag, evaluate, evaluate_derivative and evaluate_2nd_derivative take the same value at t and at t plus any integer number of periods.", "quantifier": "every periodic RationalBezier and NURBS curve, every real parameter, every integer", "why_tests_cant": "tests try one or two periods on a circle", "anchors": ["include/nanospline/RationalBezier.h: evaluate", "include/nanospline/NURBS.h: evaluate", "include/nanospline/CurveBase.h:203-213"]}
{"id": "C65", "title": "Splitting a Bezier patch of dynamic degree", "statement": "split_u of a BezierPatch with dynamic template degrees returns pieces that can be evaluated.", "quantifier": "every initialised patch with dynamic template degree, split parameter inside (0,1)", "why_tests_cant": "the tests split only patches whose degrees are template arguments", "anchors": ["include/nanospline/BezierPatch.h:331-370", "include/nanospline/BezierPatch.h:39-43"]}
{"id": "C66", "title": "B-spline patch derivatives", "statement": "For every initialised BSplinePatch the accessors evaluate_derivative_u/v and evaluate_2nd_derivative_uu/vv/uv return the partial derivatives of the surface on every non-empty knot rectangle (right-sided at knots, left-sided at the end), also in periodic directions.", "quantifier": "every initialised patch, every parameter pair in the domain (any real in a periodic direction)", "why_tests_cant": "continuum of parameters and control points; tests use finite differences", "anchors": ["include/nanospline/BSplinePatch.h:148-318"]}
{"id": "C67", "title": "Splitting a B-spline patch reproduces the surface", "statement": "For a regular initialised BSplinePatch and a parameter strictly inside the domain, split_u and split_v return two and split returns four initialised non-periodic patches of the same degrees whose domains tile the original domain in the documented order and whose values agree with the original (at a cut of multiplicity degree+1 only from the right); at the ends of the domain nothing is split; outside the domain invalid_setting_error is thrown, by split_u too.", "quantifier": "every regular patch (any degrees >=1, sizes, dimension, periodic flags), every interior split point not within 1e-16 of a different knot, every parameter pair", "why_tests_cant": "arbitrary grids and knot vectors, continuum of parameters", "anchors": ["include/nanospline/BSplinePatch.h:397-581"]}
{"id": "C68", "title": "B-spline subpatch covers the requested rectangle", "statement": "subpatch(u0,u1,v0,v1) with u0<=u1 and v0<=v1 inside the domain returns a patch with domain [u0,u1]x[v0,v1] that agrees with the original there; any other range throws invalid_setting_error.", "quantifier": "every regular patch, every accepted rectangle, every parameter pair", "why_tests_cant": "continuum of rectangles; the case u0=u1 is accepted by the checks but not exercised by tests", "anchors": ["include/nanospline/BSplinePatch.h:583-619"]}
{"id": "C69", "title": "Convergence flag of patch inverse evaluation", "statement": "inverse_evaluate of a patch returns converged=true only if the iteration has stopped at a point meeting its stopping criterion (distance or gradient below the tolerance); with converged=false the returned parameters are not farther from the query point than the initial guess.", "quantifier": "every patch (as arbitrary functions), query, guess and range", "why_tests_cant": "needs an iteration that converges slowly enough to use up the iteration limit", "anchors": ["include/nanospline/PatchBase.h: newton_raphson, inverse_evaluate"]}
{"id": "C70", "title": "Rational Bezier patch stays in sync with its setters", "statement": "After any sequence of set_control_point(i,j,p) and set_weight(i,j,w) calls on an initialised RationalBezierPatch, evaluate and the derivatives are those of the patch with exactly the updated control points and weights, with no further initialize(); the bulk setters (set_control_grid, set_weights with unchanged sizes) change nothing before the next initialize().", "quantifier": "every initialised patch, every finite history of in-range setter calls, every parameter pair", "why_tests_cant": "unbounded histories; a forgotten update shows on particular interleavings only", "anchors": ["include/nanospline/RationalBezierPatch.h:137-234"]}
{"id": "C71", "title": "Splitting rational patches reproduces the surface", "statement": "For positive weights, split_u, split_v, split and subpatch of RationalBezierPatch and NURBSPatch return patches with positive weights that parametrise exactly the requested parts of the surface.", "quantifier": "every rational Bezier / regular NURBS patch with positive weights, every interior split point or rectangle, every parameter pair", "why_tests_cant": "continuum of parameters, arbitrary grids, weights and knots", "anchors": ["include/nanospline/RationalBezierPatch.h:153-163,252-293", "include/nanospline/NURBSPatch.h:271-329"]}
{"id": "C72", "title": "Iso curves are the patch with one parameter fixed", "statement": "compute_iso_curve_u(v) evaluated at u and compute_iso_curve_v(u) evaluated at v equal evaluate(u,v), for all four spline patch classes; the curve inherits the knots and the periodic flag of its direction.", "quantifier": "every initialised patch (rational: positive weights), every parameter pair of the domain", "why_tests_cant": "continuum of parameters; tests compare a few curves", "anchors": ["include/nanospline/BezierPatch.h: compute_iso_curve_u, compute_iso_curve_v", "include/nanospline/BSplinePatch.h: compute_iso_curve_u, compute_iso_curve_v", "include/nanospline/RationalBezierPatch.h:236-250", "include/nanospline/NURBSPatch.h:253-267"]}
{"id": "C73", "title": "Patches stay in the convex hull of their control points", "statement": "For parameters of the domain (any real in a periodic direction) every value of the four spline patch classes is a convex combination of the control points; with positive weights a rational patch never divides by zero.", "quantifier": "every initialised patch, every parameter pair of the domain", "why_tests_cant": "continuum of parameters, arbitrary dimension and grids", "anchors": ["include/nanospline/BezierPatch.h: evaluate", "include/nanospline/BSplinePatch.h: evaluate", "include/nanospline/RationalBezierPatch.h:47-52", "include/nanospline/NURBSPatch.h:49-54"]}
{"id": "C74", "title": "OBJ export covers the parameter domain", "statement": "The points written for a curve are points of the curve at parameters from the lower to the upper end of its domain, both ends included; the points written for a patch are a grid over its whole domain including the four corners.", "quantifier": "every curve and patch with any domain, every sample count", "why_tests_cant": "A test looks at a [0,1] Bezier curve, where the missing end point is one sample step away and invisible in a viewer.", "anchors": ["save_obj.h:9-69"]}
{"id": "C75", "title": "Intersection iterations start where they are told and step correctly", "statement": "A start value that already satisfies the tolerance is returned as converged; a line not parallel to the plane converges in two iterations; the system solved by curve-patch intersection consists of the true gradient and Hessian of half the squared distance and its solution is the Newton step.", "quantifier": "every curve, patch, plane, start value and tolerance", "why_tests_cant": "A wrong start value or Hessian entry still converges in most tests, only more slowly or to another intersection.", "anchors": ["intersect.h:23-224"]}
{"id": "C76", "title": "Analysis results are ordered and in range", "statement": "compute_inflections, compute_singularities and reduce_turning_angle of every curve class return strictly increasing parameters inside [lower, upper].", "quantifier": "every Bezier, rational Bezier, valid B-spline and NURBS curve, interval and eigenvalue solver", "why_tests_cant": "all inputs; pieces of a B-spline are mapped to sub-intervals and back", "anchors": ["include/nanospline/Bezier.h: 111-225, 636-725, 844-970", "include/nanospline/RationalBezier.h: 98-210", "include/nanospline/BSpline.h: 159-315", "include/nanospline/NURBS.h: 158-288"]}
{"id": "C77", "title": "Inflections of cubic curves", "statement": "compute_inflections of a cubic Bezier curve returns exactly the parameters of the interval where the cross product of first and second derivative vanishes.", "quantifier": "every planar cubic and interval", "why_tests_cant": "all control points; depends on absolute tolerances", "anchors": ["include/nanospline/Bezier.h: 111-139, 844-872", "include/nanospline/internal/auto_inflection_Bezier.h", "include/nanospline/PolynomialRootFinder.h"]}
{"id": "C78", "title": "Singularities of quadratic curves", "statement": "compute_singularities of a quadratic Bezier curve returns exactly the parameters of the interval where the derivative vanishes.", "quantifier": "every planar quadratic and interval", "why_tests_cant": "all control points; double roots are where floating point tests are weakest", "anchors": ["include/nanospline/Bezier.h: 203-225, 701-725", "include/nanospline/internal/auto_singularity_Bezier.h"]}
{"id": "C79", "title": "Turning angle reduction cuts at the bisecting tangent", "statement": "reduce_turning_angle of a quadratic or cubic Bezier curve returns exactly the parameters of the interval whose tangent is parallel to the sum of the unit tangents at both ends.", "quantifier": "every planar quadratic and cubic, every interval", "why_tests_cant": "all control points and intervals", "anchors": ["include/nanospline/Bezier.h: 158-201, 653-699, 891-939", "include/nanospline/internal/auto_match_tangent_Bezier.h"]}
{"id": "C80", "title": "Degenerate curves do not make the analysis fail", "statement": "On curves of supported degree the analysis functions return a list; the exception of the root finder for an identically vanishing polynomial never reaches the caller.", "quantifier": "every planar Bezier curve", "why_tests_cant": "degenerate inputs are a null set", "anchors": ["include/nanospline/Bezier.h: 111-139, 203-225"]}
{"id": "C81", "title": "Primitive inverse evaluation for everything initialize accepts", "statement": "For every primitive accepted by initialize, inverse evaluation of a point of the primitive over its own parameter range returns parameters of the same point.", "quantifier": "every plane, ellipse and sphere accepted by initialize, every parameter of its range", "why_tests_cant": "frames in tests are axis aligned and ranges are the default ones", "anchors": ["include/nanospline/Plane.h", "include/nanospline/Ellipse.h", "include/nanospline/Sphere.h"]}
{"id": "C82", "title": "Periodic flags of primitives", "statement": "initialize of circle, ellipse, cylinder, cone, sphere and torus marks a direction periodic exactly if the parameter range is a positive whole number of turns (up to ten machine epsilons), that is if the two ends of every line in that direction coincide; nothing else changes.", "quantifier": "every primitive with an orthonormal frame and ordered range", "why_tests_cant": "continuum of ranges; degenerate ranges", "anchors": ["include/nanospline/Circle.h: initialize", "include/nanospline/Ellipse.h: initialize", "include/nanospline/Cylinder.h: initialize", "include/nanospline/Sphere.h: initialize", "include/nanospline/Torus.h: initialize"]}
{"id": "C83", "title": "Swept surfaces: initialize and flags", "statement": "initialize of extrusion, revolution and offset patches keeps the given data and marks a direction periodic exactly if the surface closes in that direction over the current parameter range (profile marked periodic and its end points within the tolerance; for a revolution's angle, a whole number of turns); without a profile every operation throws invalid_setting_error.", "quantifier": "every profile curve, direction, axis and parameter range, every sequence initialize - change range - initialize", "why_tests_cant": "the offset's flags depend on the history of calls, tests initialise once", "anchors": ["include/nanospline/ExtrusionPatch.h:129-146", "include/nanospline/RevolutionPatch.h:182-202", "include/nanospline/OffsetPatch.h:172-201"]}
{"id": "C84", "title": "Bezier simplex fitting interpolates", "statement": "For every dimension and degree the matrix of Bernstein values at the control points is invertible, and fit produces a simplex whose value at each control point is the corresponding sample.", "quantifier": "every simplex dimension, degree, ordinate dimension and sample list", "why_tests_cant": "unisolvence is needed for every dimension and degree; tests fit a few low degrees", "anchors": ["include/nanospline/BezierSimplex.h:193-198", "include/nanospline/BezierSimplex.h:332-350"]}
{"id": "C85", "title": "Bezier simplex control points are barycentric coordinates", "statement": "get_control_points returns the multi-indices divided by the degree: non-negative coordinates with sum one, one point per ordinate.", "quantifier": "every simplex dimension and degree, including degree 0", "why_tests_cant": "degree 0 takes a special path that no test reads", "anchors": ["include/nanospline/BezierSimplex.h:149-158"]}
{"id": "C86", "title": "MSH sampled mesh", "statement": "With save_sampled the file contains for every curve the points at 101 equally spaced parameters joined by 100 segments, and for every patch the grid of points at equally spaced parameters with its cells as quadrilaterals; nodes and elements are numbered 1, 2, 3, ... without gaps or repetitions over the whole file, all counters agree, every element refers to the right nodes and has one entry with the tag of its object.", "quantifier": "every list of curves and patches of dimension 2 or 3 with positive sample counts whose evaluations succeed", "why_tests_cant": "node and element offsets accumulate over arbitrary lists of objects", "anchors": ["include/nanospline/save_msh.h:18-93", "include/nanospline/save_msh.h:135-230"]}
{"id": "C87", "title": "MSH smallest node number", "statement": "min_node_tag of the saved node section is the smallest node number in it.", "quantifier": "every non-empty list of curves and patches", "why_tests_cant": "tests save one object", "anchors": ["include/nanospline/save_msh.h:18-35"]}
{"id": "C88", "title": "MSH entity data", "statement": "The file has exactly one data section for curve elements and one for patch elements (when there are such objects), each listing exactly the elements of its kind.", "quantifier": "every list of curves and patches", "why_tests_cant": "depends on the numbers of curves and of patches", "anchors": ["include/nanospline/save_msh.h:72-92", "include/nanospline/save_msh.h:205-229"]}
{"id": "C89", "title": "MSH files can be read back completely", "statement": "Whatever save_msh accepts, load_msh reads, and the objects are the same, including whether they are periodic.", "quantifier": "every curve and patch class, including lines, circles, ellipses and closed form patches", "why_tests_cant": "classes without control points and periodic objects are not saved in any test", "anchors": ["include/nanospline/save_msh.h", "include/nanospline/load_msh.h:238-308"]}
{"id": "C90", "title": "Swept patches recommend samples", "statement": "ExtrusionPatch and RevolutionPatch recommend at least one sample in each direction, so that saving their sampled mesh evaluates them at finite parameters.", "quantifier": "every profile curve", "why_tests_cant": "profiles without control points", "anchors": ["include/nanospline/ExtrusionPatch.h:200-206", "include/nanospline/RevolutionPatch.h:256-262", "include/nanospline/save_msh.h:135-230"]}
{"id": "C91", "title": "Asking to remove more copies of a knot than there are is harmless", "statement": "remove_knot(t, num_copies, tol) with num_copies above the multiplicity of t removes at most the copies there are, leaves the other knots alone, and the curve moves by at most the number removed times tol.", "quantifier": "every valid B-spline, knot t inside the domain, num_copies and non-negative tolerance", "why_tests_cant": "num_copies may be any integer; the failing case needs every existing copy to be removable first", "anchors": ["include/nanospline/BSplineBase.h: remove_knot"]}
{"id": "C92", "title": "Knot removal of a NURBS curve", "statement": "Removing the copies just inserted in a NURBS curve with positive weights gives back the same object; in general remove_knot keeps degree and domain, removes only copies of t, and the curve moves by no more than the homogeneous tolerance allows.", "quantifier": "every valid initialized NURBS curve with positive weights, knot inside the domain, number of copies up to the multiplicity, and tolerance of any sign (negative: a millionth of the extent of the homogeneous control points)", "why_tests_cant": "all weights and tolerances; weights may vanish in the result", "anchors": ["include/nanospline/NURBS.h: remove_knot, insert_knot, set_homogeneous", "include/nanospline/BSplineBase.h: remove_knot"]}
{"id": "C93", "title": "Inverse arc length", "statement": "inverse_arc_length(curve, l) returns the parameter at which the length of the curve, counted from the start of its domain, is l; on a patch, the point of the segment at which the length from its first end is l.", "quantifier": "every curve and patch, length and number of iterations", "why_tests_cant": "the tests use few curves over [0,1] with loose tolerances", "anchors": ["include/nanospline/arc_length.h: inverse_arc_length (both)"]}
{"id": "C94", "title": "Least squares fitting", "statement": "fit returns the curve or patch of its class (fixed degree, given knots) that minimises the sum of the squared distances to the given values at the given parameters; values taken from a member of the class are interpolated exactly.", "quantifier": "every degree, knot vector, list of parameters in the domain and list of values, for Bezier curves, B-spline curves, Bezier patches and B-spline patches, given a solver that returns a least squares solution of the matrix of basis function values", "why_tests_cant": "the matrix is built by evaluating one basis function at a time; all degrees, knots, parameters and over- and underdetermined systems", "anchors": ["include/nanospline/Bezier.h:331-377", "include/nanospline/BSpline.h:420-475", "include/nanospline/BezierPatch.h:585-644", "include/nanospline/BSplinePatch.h:705-774"]}
{"id": "C95", "title": "Deformation", "statement": "deform changes a curve or patch by the least squares fit of the changes: everywhere the new value is the old one plus the value of the fit, degree, knots and periodicity stay, and among all members of the class the result is closest to the old values plus the changes, with equality whenever a member attains them.", "quantifier": "every curve and patch of fixed degree, periodic or not, every list of parameters and changes", "why_tests_cant": "periodic objects accept any parameter; the tests deform at parameters inside the domain only", "anchors": ["include/nanospline/Bezier.h:379-386", "include/nanospline/BSpline.h:478-487", "include/nanospline/BezierPatch.h:646-654", "include/nanospline/BSplinePatch.h:776-789"]}
{"id": "C96", "title": "Fitting with dynamic degree", "statement": "fit and deform work for the classes of dynamic degree (template argument -1) as for those of fixed degree.", "quantifier": "every valid curve and patch of dynamic degree", "why_tests_cant": "the tests only use fixed degrees", "anchors": ["include/nanospline/Bezier.h:331-386", "include/nanospline/BSpline.h:420-487", "include/nanospline/BezierPatch.h:585-654", "include/nanospline/BSplinePatch.h:705-789"]}
{"id": "C97", "title": "Polynomial root finding of degree three and more", "statement": "For degree n>=3 the root finder takes the eigenvalues of the companion matrix: with exact eigenvalues the values it adds are exactly the real roots of the polynomial in [t0,t1].", "quantifier": "every degree at least three, all coefficient lists with leading coefficient at least eps, all intervals, every correct eigenvalue solver", "why_tests_cant": "depends on an algebraic fact about the matrix for every degree; tolerance on complex roots near the axis", "anchors": ["include/nanospline/PolynomialRootFinder.h:19-60"]}
{"id": "C98", "title": "Analysis of Bezier curves of higher degree misses nothing", "statement": "compute_inflections (degree 4-10), compute_singularities (degree 3-6) and reduce_turning_angle (degree 4-10) return a strictly increasing list containing every zero in [a,b] of the cross product, of the derivative, and of the cross product with the bisector of the end tangents; and nothing but real parts of complex roots of that polynomial within the tolerance of their modulus.", "quantifier": "all control points with leading coefficient at least 1e-8, all intervals, every correct eigenvalue solver", "why_tests_cant": "generated polynomials with dozens of terms, continuum of curves", "anchors": ["include/nanospline/Bezier.h", "include/nanospline/internal/auto_inflection_Bezier.h", "include/nanospline/PolynomialRootFinder.h"]}
{"id": "C99", "title": "Turning angle of the base class", "statement": "get_turning_angle(t0,t1) of CurveBase (used by Ellipse) returns the total signed angle the tangent turns by on [t0,t1]; when an end tangent is shorter than machine epsilon it is taken a little further inside, and curves that are not planar are rejected.", "quantifier": "all curves with a continuous tangent angle, all intervals", "why_tests_cant": "a total angle cannot be read off two tangents; continuum of curves and intervals", "anchors": ["include/nanospline/CurveBase.h:107-129", "include/nanospline/Ellipse.h"]}
{"id": "C100", "title": "Turning angle of Bezier curves", "statement": "get_turning_angle(t0,t1) of a planar Bezier curve with non-vanishing derivative returns the total signed angle its tangent turns by on [t0,t1], for the generic class and the specialisations for degrees 0 to 3, and rejects intervals outside [0,1].", "quantifier": "all degrees, control points and parameters 0 <= t0 <= t1 <= 1", "why_tests_cant": "continuum of control points; the control polygon turns like the curve only for some of them", "anchors": ["include/nanospline/Bezier.h:141-156", "include/nanospline/Bezier.h:642-651", "include/nanospline/Bezier.h:874-889"]}
{"id": "C101", "title": "Turning angle of rational curves", "statement": "get_turning_angle(t0,t1) of planar rational Bezier curves and NURBS with non-vanishing derivative returns the total signed angle the tangent turns by on [t0,t1].", "quantifier": "all degrees, control points, weights, knots and intervals", "why_tests_cant": "sampling at as many parameters as there are control points can miss turns", "anchors": ["include/nanospline/RationalBezier.h:127-142", "include/nanospline/NURBS.h:194-209"]}
{"id": "C102", "title": "Turning angle of B-splines", "statement": "get_turning_angle(t0,t1) of a planar B-spline with non-vanishing derivative returns the total signed angle the tangent turns by on [t0,t1], the sum over its Bezier pieces.", "quantifier": "all degrees, control points and knots, all t0 <= t1 in the domain, knots included", "why_tests_cant": "piece boundaries, normalised parameters and the degree specialisations interact", "anchors": ["include/nanospline/BSpline.h:197-226"]}
{"id": "C103", "title": "Turning angle of lines and circles", "statement": "get_turning_angle(t0,t1) is zero for lines and the signed angle between the parameters for circles, in agreement with the tangent of the curve.", "quantifier": "all lines, all circles with an orthonormal frame, all t0 <= t1", "why_tests_cant": "tests use one orientation of the frame", "anchors": ["include/nanospline/Line.h:129-137", "include/nanospline/Circle.h:172-179"]}
{"id": "C104", "title": "SVG file of one curve", "statement": "save_svg writes a file whose view contains everything drawn: the polyline through 1001 evenly spaced curve points (ends included) and a disc at every control point, all placed by one similarity; the longer side of the view is 1200 units and the control points span 1000 of them.", "quantifier": "all planar Bezier, rational Bezier, B-spline and NURBS curves", "why_tests_cant": "continuum of curves; degenerate boxes and curves outside of the hull of their control points", "anchors": ["include/nanospline/save_svg.h:12-42", "include/nanospline/VectorExport.h:8-55"]}
{"id": "C105", "title": "SVG file of several curves", "statement": "save_svg of a list of curves uses one placement for all of them, computed from the box of all control points, and everything drawn lies inside the view.", "quantifier": "all non-empty lists of planar curves in the hull of their control points", "why_tests_cant": "continuum of curves, lists of any length", "anchors": ["include/nanospline/save_svg.h:44-85"]}
{"id": "C106", "title": "PostScript output", "statement": "to_eps writes a PostScript program that runs without error and paints the polyline through the samples and a disc at every control point.", "quantifier": "all curves and options", "why_tests_cant": "no test reads the output; independent of the curve", "anchors": ["include/nanospline/VectorExport.h:57-109"]}
{"id": "C107", "title": "Control point preimages", "statement": "get_control_point_preimage assigns a parameter to every control point such that a patch whose control points are an affine function of their preimages is that affine function of its parameters.", "quantifier": "all Bezier and B-spline patches of degree at least one, all knots, all parameters of the domain", "why_tests_cant": "linear precision is a statement about all knots and parameters; tests look at single patches", "anchors": ["include/nanospline/BSplinePatch.h:148-162", "include/nanospline/BezierPatch.h:110-116"]}
{"id": "C108", "title": "Inflections and singularities of B-splines", "statement": "compute_inflections and compute_singularities of a planar B-spline report, in increasing order, every parameter of the interval where the cross product of first and second derivative, or the speed, of a polynomial piece vanishes, also at the knots.", "quantifier": "all planar B-splines, knots and intervals inside the domain", "why_tests_cant": "a continuum of curves and intervals; intervals that begin at knots", "anchors": ["include/nanospline/BSpline.h:159-195", "include/nanospline/BSpline.h:271-312", "include/nanospline/PolynomialRootFinder.h:19-38"]}
{"id": "C109", "title": "Rounding error of Bezier evaluation", "statement": "In IEEE arithmetic (double and float) evaluation of a Bezier curve of degree n with finite control points of size at most M at a parameter in [0,1] gives finite coordinates, each within n(4uM+3eta) of the Bernstein polynomial of the control points (u the unit roundoff, eta half the least positive number).", "quantifier": "all degrees with 24nu at most 1, all dimensions, all finite control points up to half the overflow threshold, all parameters in [0,1]", "why_tests_cant": "about 2^64 values for each number; the error of a chain of roundings is a worst case no test finds", "anchors": ["include/nanospline/Bezier.h:43-51", "include/nanospline/Bezier.h:389-424"]}
{"id": "C110", "title": "Rounding error of B-spline evaluation", "statement": "In IEEE arithmetic evaluation of a B-spline of degree p with control points of size at most M at a parameter of the domain gives finite coordinates, each within p(14uM+(3+2M)eta) of the Cox-de Boor curve of the same knots, whatever the ratio of the knot spans.", "quantifier": "all B-splines with sorted finite knots, distinct ones more than 1e-15 apart, all parameters of the domain", "why_tests_cant": "all knot vectors and parameters; quotients of rounded differences", "anchors": ["include/nanospline/BSpline.h:72-85", "include/nanospline/BSpline.h:490-530", "include/nanospline/BSplineBase.h:289-310"]}
{"id": "C111", "title": "Exact values in spite of rounding", "statement": "In double arithmetic Bezier curves and clamped B-splines take exactly their end control points at the ends of the domain, and the two parts of a split Bezier curve meet exactly in the evaluated point and keep the end points.", "quantifier": "all finite control points of any size, all parameters strictly inside for the split", "why_tests_cant": "all bit patterns of the control points", "anchors": ["include/nanospline/Bezier.h:43-51", "include/nanospline/Bezier.h:227-285", "include/nanospline/BSpline.h:72-85"]}
{"id": "C112", "title": "Evaluation at any bit pattern", "statement": "In double arithmetic the evaluation of a non-periodic B-spline with finite sorted knots returns a point for every parameter whatsoever, including NaN and infinities: no access outside the arrays, no endless search.", "quantifier": "all valid B-splines with finite knots, all 2^64 parameters, all control points", "why_tests_cant": "NaN makes every comparison of the span search false; depends on the knots", "anchors": ["include/nanospline/BSpline.h:72-85", "include/nanospline/BSplineBase.h:289-325"]}
{"id": "C113", "title": "Rounding error of Bezier derivatives", "statement": "In IEEE arithmetic evaluate_derivative of a Bezier curve of degree n with control points of size at most M gives finite coordinates, each within n(9nuM+4eta) of the derivative of the exact curve.", "quantifier": "all degrees with 24nu at most 1, all finite control points with 4nM at most half the overflow threshold, all parameters in [0,1]", "why_tests_cant": "worst case over all bit patterns", "anchors": ["include/nanospline/Bezier.h:58-86", "include/nanospline/Bezier.h:389-424"]}
{"id": "C114", "title": "Periodic curves with rounding", "statement": "In IEEE double arithmetic a periodic curve can be evaluated at every finite parameter: unwrap_parameter gives a parameter in the domain, within one rounding of the exact wrapped one, and evaluate gives the point of the exact curve there up to the rounding error of the evaluation.", "quantifier": "all finite parameters, all finite control points with the usual size bounds, all periodic Bezier curves and B-splines", "why_tests_cant": "the addition of the lower bound or of the period rounds up past the end of the domain for rare combinations of bits", "anchors": ["include/nanospline/CurveBase.h:203-213", "include/nanospline/Bezier.h:43-51", "include/nanospline/BSpline.h:72-85"]}
{"id": "C115", "title": "Rounding error of rational curves", "statement": "In IEEE arithmetic evaluate of an initialised rational Bezier curve or NURBS curve with weights between w0 > 0 and W and control points of size at most M gives finite coordinates, within W/w0 M (20n+4)u (Bezier) or W/w0 M (70p+4)u (NURBS), plus underflow terms, of the exact weighted mean.", "quantifier": "all degrees, all finite control points and positive weights whose ratio is not too large for the degree, all knots more than 1e-15 apart, all parameters in the domain", "why_tests_cant": "the worst case depends on the ratio of the weights and on all bit patterns of points, weights and parameter", "anchors": ["include/nanospline/RationalBezier.h:38-43", "include/nanospline/RationalBezier.h:211-220", "include/nanospline/NURBS.h:51-56", "include/nanospline/NURBS.h:292-303"]}
{"id": "C116", "title": "End points of rational curves with rounding", "statement": "In IEEE double arithmetic a rational Bezier curve evaluated at the ends of its domain gives its first and last control points exactly.", "quantifier": "all degrees, all finite control points, all positive weights", "why_tests_cant": "the product with the weight and the later division undo each other for most bit patterns, not for all", "anchors": ["include/nanospline/RationalBezier.h:38-43", "include/nanospline/RationalBezier.h:211-220"]}
{"id": "C117", "title": "Repeated splitting of Bezier curves with rounding", "statement": "In IEEE double and single arithmetic, splitting a Bezier curve any number of times at parameters strictly between 0 and 1, keeping either piece each time, never fails or overflows, and the piece that is left follows the given curve on the cut out interval with an error of at most degree times number of cuts times four unit roundoffs times the coordinate bound (plus underflow).", "quantifier": "all degrees and sequences of cuts with 24 times degree times number of cuts times u at most 1, all finite control points below half the overflow threshold", "why_tests_cant": "the error is accumulated over an arbitrary sequence of splits; a test sees one sequence and cannot bound the others", "anchors": ["include/nanospline/Bezier.h:227-251"]}
{"id": "C118", "title": "Evaluation of Bezier patches with rounding", "statement": "In IEEE double and single arithmetic a non-periodic Bezier patch with a grid bounded by M evaluates, at every pair of parameters in [0,1], to a finite point within (n+m)(4uM+3eta) of the exact tensor product of Bernstein polynomials, where n, m are the degrees.", "quantifier": "all degrees with 24(n+m)u at most 1, static or dynamic, all finite grids below half the overflow threshold, all parameters in the unit square, both orders of the directions", "why_tests_cant": "which direction goes first depends on the degrees; the bound must hold for both orders and every bit pattern", "anchors": ["include/nanospline/BezierPatch.h:49-58", "include/nanospline/BezierPatch.h:151-182"]}
{"id": "C119", "title": "Evaluation of B-spline patches with rounding", "statement": "In IEEE double and single arithmetic a non-periodic B-spline patch whose distinct knots are at least 1e-15 apart with finite knots and a grid bounded by M evaluates, at every parameter pair of its domain (in a direction whose first knot span is empty, every parameter above the lower end), to a finite point within (p+q)(16uM+(5+3M)eta) of the exact tensor product of B-spline basis functions.", "quantifier": "all degrees with 24(p+q)u at most 1, all knot vectors with separated knots, all finite grids below half the overflow threshold, all parameters of the domain", "why_tests_cant": "the span search, the divided knot differences and both directions all round; only a proof covers every knot vector", "anchors": ["include/nanospline/BSplinePatch.h:63-72"]}
{"id": "C120", "title": "Derivatives of B-spline curves with rounding", "statement": "In IEEE double and single arithmetic evaluate_derivative of a non-periodic B-spline curve whose different knots are more than h apart (h at least 1e-15) is finite and lies within p(17uL+(4+4M+3L)eta) of the exact derivative of the polynomial piece on the knot span of the parameter, where L = 2pM/h.", "quantifier": "all degrees with 24pu at most 1, all finite knot vectors and control points with M and L below a quarter of the overflow threshold, all parameters of the domain (above its lower end if the first span is empty)", "why_tests_cant": "division by knot differences amplifies rounding; the amplification is bounded for every knot vector only by proof", "anchors": ["include/nanospline/BSpline.h:94-132"]}
{"id": "C121", "title": "Knot insertion with rounding", "statement": "In IEEE double and single arithmetic insert_knot of a B-spline curve whose control points have coordinates of size at most M, at a parameter t of its domain with r copies (r plus the multiplicity of t at most the degree), succeeds; the new knots are exactly the old ones and r copies of t, the new control points are finite, and the curve they define (in exact arithmetic) lies within r(14uM+(3+2M)eta) of the given curve at every parameter of the domain.", "quantifier": "all degrees with 24pu at most 1, all finite knot vectors with a regular start and t where the exact insertion applies, different knots and t more than 1e-16 apart, all finite control points below half the overflow threshold, all numbers of copies, periodic or not", "why_tests_cant": "the error is a bound on a whole curve, for every parameter, knot vector and multiplicity", "anchors": ["include/nanospline/BSplineBase.h:137-189", "include/nanospline/BSplineBase.h:379-387"]}
{"id": "C122", "title": "Conversion to Bezier segments with rounding", "statement": "In IEEE double and single arithmetic convert_to_Bezier of a B-spline curve of degree p with m knots and coordinates of size at most M succeeds; the parameter bounds are exactly the different knots of the domain in increasing order, every segment has p+1 finite control points, and follows the given curve on its interval within p(m+2)(14uM+(3+2M)eta).", "quantifier": "all degrees and numbers of knots with 24p(m+2)u at most 1, all finite knot vectors whose first span is not empty and whose different knots are more than 1e-16 apart, all finite control points below half the overflow threshold", "why_tests_cant": "the number of insertions depends on the knot vector; every one works on already rounded control points", "anchors": ["include/nanospline/BSpline.h:329-392", "include/nanospline/BSplineBase.h:137-189"]}
{"id": "C123", "title": "Splitting of B-spline curves with rounding", "statement": "In IEEE double and single arithmetic split of a B-spline curve of degree p with coordinates of size at most M at a parameter t strictly inside its domain gives two valid curves of degree p with finite control points; their domains are exactly [lower,t] and [t,upper], and they follow the given curve there within p(14uM+(3+2M)eta) at every parameter (for the first piece at t itself if the multiplicity of t is at most p).", "quantifier": "all degrees p from 1 with 24pu at most 1, all finite knot vectors with a regular start whose different knots, and t, are more than 1e-16 apart, all finite control points below half the overflow threshold, knots t of every multiplicity, periodic or not", "why_tests_cant": "the error is a bound on two whole curves, for every parameter, knot vector and multiplicity of t", "anchors": ["include/nanospline/split.h:49-102", "include/nanospline/BSplineBase.h:137-189"]}
{"id": "C124", "title": "Degree elevation with rounding", "statement": "In IEEE double and single arithmetic elevating the degree of a Bezier curve of degree n, with coordinates of size at most M, k times gives n+k+1 finite control points; the first and the last are exactly those of the given curve, and the curve they define lies within k(14uM+(3+2M)eta) of the given one at every parameter of the unit interval.", "quantifier": "all degrees n and numbers of elevations k with 24(n+k+1)u at most 1, all dimensions, all finite control points below half the overflow threshold", "why_tests_cant": "the error is a bound on a whole curve after any number of elevations, each on already rounded control points and with rounded weights i/(n+1)", "anchors": ["include/nanospline/Bezier.h:309-329"]}
{"id": "C125", "title": "Subcurves of Bezier curves with rounding", "statement": "In IEEE double and single arithmetic taking the subcurve of a Bezier curve of degree n over [t0,t1], and then subcurves of the result, k times in all, succeeds with n+1 finite control points, and the curve they define lies within kn(4uM+3eta) of the given curve at the corresponding parameter, for every parameter of the unit interval.", "quantifier": "all degrees n and depths k with 24knu at most 1, all dimensions, all intervals with 0<=t0<=t1<=1 (also empty ones), all finite control points with coordinates at most M below half the overflow threshold", "why_tests_cant": "every control point of a subcurve is a blossom with mixed arguments; the error must be bounded for the whole curve and through any number of subcurves of subcurves", "anchors": ["include/nanospline/Bezier.h:267-304", "include/nanospline/Bezier.h:389-408"]}
{"id": "C126", "title": "Second derivatives of Bezier curves with rounding", "statement": "In IEEE double and single arithmetic the second derivative of a Bezier curve of degree n is computed as a finite point within n(20u n(n-1)M + 6eta) of the derivative of the derivative of the curve, in each coordinate, for every parameter of the unit interval.", "quantifier": "all degrees n with 24nu at most 1, all dimensions, all parameters in [0,1], all finite control points with coordinates at most M where 10n^2M is at most half the overflow threshold", "why_tests_cant": "the differences of differences carry the errors of the first pass, which cancellation does not remove; a test compares with a tolerance at a few parameters", "anchors": ["include/nanospline/Bezier.h:88-109", "include/nanospline/Bezier.h:58-65"]}
{"id": "C127", "title": "Second derivatives of B-spline curves with rounding", "statement": "In IEEE double and single arithmetic the second derivative of a B-spline curve of degree p is computed as a finite point within p(81u K^2 M + 12(1+K)^2(1+M)eta), K = p/h, of the second derivative of the polynomial piece that the curve follows on the knot span of the parameter, in each coordinate.", "quantifier": "all degrees p with 24pu at most 1, all dimensions, all valid knot vectors whose different knots are more than h >= 1e-15 apart, all finite control points with coordinates at most M, all parameters of the domain (the start only if the first span is not empty), as long as 6(1+K)^2(1+M) is at most a quarter of the overflow threshold", "why_tests_cant": "two rounds of quotients by knot differences amplify the rounding errors; which quotients are divided by nearly equal knots depends on the knot vector", "anchors": ["include/nanospline/BSpline.h:134-157", "include/nanospline/BSpline.h:94-109", "include/nanospline/BSpline.h:490-525"]}
{"id": "C128", "title": "Rational Bezier patches with rounding", "statement": "In IEEE double and single arithmetic a rational Bezier patch of degrees n and m with weights in [w0, W], w0 > 0, and coordinates at most M is initialized and evaluated to a finite point within (W/w0) M (20(n+m)+4)u + (1 + (7(n+m)(1+M)+5)/w0) eta of the exact weighted tensor mean, in each coordinate.", "quantifier": "all degrees, static or dynamic, all dimensions, all finite control points and positive weights with 8(n+m+1)(4uW+3eta) at most w0 and M, W, WM at most a quarter of the overflow threshold, all parameters of the unit square", "why_tests_cant": "the division amplifies the rounding errors of the homogeneous patch by the ratio of the weights; grids, weights and parameters range over all floating point numbers", "anchors": ["include/nanospline/RationalBezierPatch.h:47-52", "include/nanospline/RationalBezierPatch.h:137-151", "include/nanospline/BezierPatch.h:49-58"]}
{"id": "C129", "title": "NURBS patches with rounding", "statement": "In IEEE double and single arithmetic a NURBS patch of degrees p and q with weights in [w0, W], w0 > 0, and coordinates at most M, once initialized, is evaluated to a finite point within (W/w0) M ((80(p+q)+4)u + 20(p+q)eta) + (1 + (14(p+q)(1+M)+5)/w0) eta of the exact weighted tensor mean of B-spline basis functions, in each coordinate.", "quantifier": "all degrees, all dimensions, all valid knot vectors whose different knots are more than 1e-15 apart, all finite control points and positive weights with 8(2(p+q)+1)((8u+2eta)W+3eta) at most w0 and M, W, WM at most a quarter of the overflow threshold, all parameters of the domain (a start only if the first span is not empty)", "why_tests_cant": "the division amplifies the rounding errors of two rounds of de Boor's algorithm by the ratio of the weights; grids, weights, knots and parameters range over all floating point numbers", "anchors": ["include/nanospline/NURBSPatch.h:49-54", "include/nanospline/NURBSPatch.h:139-159", "include/nanospline/BSplinePatch.h:104-120"]}
{"id": "C130", "title": "Derivatives of Bezier patches with rounding", "statement": "In IEEE double and single arithmetic the partial derivative in u of a Bezier patch of degrees n and m whose template degree in u is dynamic or at least 4 is computed as a finite point within n((11n+8m)uM + (4+8m)eta) of the exact partial derivative, in each coordinate; the same holds in v with n and m exchanged.", "quantifier": "all degrees with 24(n+m)u at most 1, all dimensions, all finite control points with coordinates at most M, where 5n(M+1) (5m(M+1) in v) is at most half the overflow threshold, all parameters of the unit square", "why_tests_cant": "differences of rounded iso-curve points amplify the rounding errors of the first stage by the degree; grids and parameters range over all floating point numbers", "anchors": ["include/nanospline/BezierPatch.h:60-70", "include/nanospline/BezierPatch.h:151-182", "include/nanospline/Bezier.h:67-86"]}
{"id": "C131", "title": "Derivatives of the Bezier classes of degrees 0 to 3 with rounding", "statement": "In IEEE double and single arithmetic the derivative computed by the class for Bezier curves of degree n, n at most 3, is a finite point within n(9nuM + 6n eta) of the exact derivative of the Bernstein form, in each coordinate.", "quantifier": "degrees 0 to 3 with 24nu at most 1, all dimensions, all finite control points with coordinates at most M, where 5n(M+1) is at most half the overflow threshold, all parameters of the unit interval", "why_tests_cant": "these classes scale the difference of two rounded points, so that their rounding errors do not cancel; control points and parameters range over all floating point numbers", "anchors": ["include/nanospline/Bezier.h:448", "include/nanospline/Bezier.h:514-518", "include/nanospline/Bezier.h:615-626", "include/nanospline/Bezier.h:812-828"]}
{"id": "C132", "title": "Derivatives of Bezier patches of template degrees 0 to 3 with rounding", "statement": "In IEEE double and single arithmetic the partial derivative in u of a Bezier patch of degrees n and m whose template degree in u is 0 to 3 is computed as a finite point within n((11n+8m)uM + (6n+8m)eta) of the exact partial derivative, in each coordinate; the same holds in v with n and m exchanged.", "quantifier": "all degrees with 24(n+m)u at most 1, all dimensions, all finite control points with coordinates at most M, where 6n(M+1) (6m(M+1) in v) is at most half the overflow threshold, all parameters of the unit square", "why_tests_cant": "the specialised classes take differences of rounded points of a curve of rounded points; grids and parameters range over all floating point numbers", "anchors": ["include/nanospline/BezierPatch.h:60-70", "include/nanospline/BezierPatch.h:151-182", "include/nanospline/Bezier.h:448", "include/nanospline/Bezier.h:514-518", "include/nanospline/Bezier.h:615-626", "include/nanospline/Bezier.h:812-828"]}
{"id": "C133", "title": "Second derivatives of Bezier patches with rounding", "statement": "In IEEE double and single arithmetic the second partial derivative in uu of a Bezier patch of degrees n and m whose template degree in u is dynamic or at least 4 is computed as a finite point within n(n-1)((24n+16m)uM + 15m eta) + 6n eta of the exact one, in each coordinate; the same holds in vv with n and m exchanged.", "quantifier": "all degrees with 24(n+m)u at most 1, all dimensions, all finite control points with coordinates at most M, where 12n^2(M+1) (12m^2(M+1) in vv) is at most half the overflow threshold, all parameters of the unit square", "why_tests_cant": "second differences amplify the rounding errors of the first stage by the square of the degree; grids and parameters range over all floating point numbers", "anchors": ["include/nanospline/BezierPatch.h:72-82", "include/nanospline/BezierPatch.h:151-182", "include/nanospline/Bezier.h:88-108"]}
