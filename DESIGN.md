# Formal model of nanospline: design

Target: qnzhou/nanospline (C++ headers in `/repo/include/nanospline`), read as text.
Tool: Coq 8.16.1, standard library (`Reals`, `List`, `ZArith`, ...) and Coquelicot / Flocq where useful.

## 1. Modelling conventions

* **Scalars.** Every header is a template over `_Scalar`. The model is polymorphic over a class
  `ScalarOps T` that has *operations only* (0, 1, + - * /, comparisons, integer injection, fmod,
  machine epsilon) and no laws. Theorems are about the instance over Coq's real numbers; a second
  instance over rationals makes the same definitions executable so that examples and
  counterexamples can be computed. IEEE rounding is *not* modelled: arithmetic is exact.
* **Points.** Rows of Eigen matrices are values of a type `P` with `PointOps T P` operations.
  Theorems are about `vec R d` for arbitrary `d`.
* **Outcomes.** Functions that can fail return `res A`: `Ok a`, `Throw e` (a C++ exception of the
  named class) or `Undef` (out of range access, failed `assert`, missing return: undefined or
  aborting behaviour). A theorem that says `= Ok v` therefore also says that no exception is thrown,
  no assertion fails and no out of range access happens.
* **Loops** become a generic `for` combinator over `Z` with a state. Loops without a static bound
  (`while`) run on explicit fuel and running out of fuel is `Undef`; theorems state that it
  does not happen.
* **Integers** are unbounded (`Z`); C++ `int` overflow is out of scope.
* **Eigen** matrices are lists of rows with checked access.

## 2. Proof architecture

* `Polar`: theory of symmetric multiaffine functions. The de Boor triangle (with arbitrary knots)
  is symmetric and multiaffine in its arguments, reproduces the control points at consecutive
  knots, and any symmetric multiaffine function agrees with the triangle started from its values at
  consecutive knots. Splitting, subcurves, knot insertion, conversion to Bezier pieces, and
  derivatives all follow from these three facts.
* Independent specifications (Bernstein polynomials, Cox-de Boor recursion, derivatives as limits,
  implicit equations, nearest point, ...) live in `Spec*.v` and mention no model function.
* `Prop*.v` files contain the property theorems only, each closed by `exact lemma`, each with
  `Print Assumptions`, and with an `Example` that the hypotheses are satisfiable.

## 3. Plan per property

| id | what is modelled | how it is proved |
|----|------------------|------------------|
| C01 | `Bezier::evaluate/deBoor/blossom` loops over arrays | loop invariant (row j after step r = de Casteljau value), then induction to the Bernstein sum |
| C02 | same | corollary of the triangle at 0 and 1 |
| C03 | evaluate of Bezier and BSpline | naturality of the loops in the point type |
| C04 | same | Bernstein / Cox-de Boor weights are non-negative and sum to 1 |
| C05 | the four specialised classes | unfold the generic loops at the fixed degree; ring |
| C06 | derivative coefficient loops | polar form derivative; `is_derive` per coordinate |
| C07 | split loops | invariant: pieces' points are polar values; uniqueness of polar forms |
| C08 | subcurve via blossom | polar values at (t0..,t1..) |
| C09 | cubic subcurve via repeated split | false in the code: refutation + the sub-case that holds |
| C10 | elevate_degree | elevated polar form / Bernstein identity; induction for repetition |
| C11 | unwrap_parameter with fmod | fmod specification; floor |
| C12 | hodograph | same coefficient loops |
| C13 | locate_span binary search on fuel | invariant low/high; termination measure high-low |
| C14 | BSpline evaluate | de Boor triangle = Cox-de Boor sum by induction on the level |
| C15 | set_control_point then evaluate | support of the basis |
| C16 | derivative coefficient loops with knots | polar derivative |
| C17 | insert_knot loops | new control points are polar values on the new knot vector |
| C18 | remove_knot | one removal round inverts one insertion step up to the tolerance; induction on the copies (BSplineRemove*.v); negative tolerances (RemoveTol.v) |
| C19 | convert_to_Bezier | repeated insertion + polar values at span ends |
| C20 | split(BSpline) | repeated insertion + restriction of the polar argument |
| C21 | evaluate at the ends | knots equal to the parameter |
| C22 | conversion.h, combine_Beziers | special knot vector 0..0 1..1; the joined curve is a valid B-spline whose spans are the pieces, then an invariant over the removal loop with the bound of C18 (BSplineCombine*.v); refutation by a rational run (TransferCombine.v) |
| C23-C28 | RationalBezier, NURBS as state machines over the homogeneous curve | projection lemmas; invariants over op lists; quotient rule |
| C29 | evaluate_curvature | vector algebra |
| C30 | PolynomialRootFinder<0,1,2> | discriminant case analysis |
| C31-C34 | BezierPatch (iso curves, splits, subpatch) | tensor product of the curve theorems |
| C35-C36, C66-C68 | BSplinePatch with cached iso curves, splits, subpatch | as curves (tensor product); refutations for stale cache and equal subpatch bounds |
| C37, C70-C71 | rational patches as state machines over the homogeneous patch | quotient rule in two variables; invariants over setter histories; splits of the homogeneous patch |
| C72-C73 | iso curves and hulls of the four patch classes | tensor product lemmas |
| C38 | sampling + Newton loops over an arbitrary curve function | range invariant |
| C69 | the flag of patch newton_raphson | step invariant; refutation by an explicit slow iteration |
| C39 | Line / degree-1 Bezier projection | quadratic minimisation |
| C40-C42 | primitive curves and patches over R with sin/cos/atan2 | trigonometric identities, derivatives |
| C81-C82 | initialize of the primitives | refutations by explicit frames and ranges; rounding lemma for the flag |
| C83 | initialize of extrusion, revolution, offset | exact condition per class; stale flag refuted |
| C44, C45, C84, C85 | Bezier simplices | induction on the dimension for the indices and the multinomial theorem; index raising lemma for elevation and de Casteljau; Lagrange polynomials of the lattice for fit |
| C94, C95, C96 | least squares fit and deform | loop invariant over the columns filled so far: the matrix is that of the specification's basis functions; minimality is linear algebra on sums of squares (shift by the old values for deform); a two point periodic curve; the assertions hit for dynamic degree |
| C43 | clip_periodic_parameter | floor/ceil arithmetic |
| C46-C47 | sample.h, arc_length.h (romberg) | list lemmas; refutation for romberg |
| C48 | Quadrature rules with their std::sqrt constants | polynomial identities modulo the squares of the roots |
| C49, C75 | intersect.h loops over arbitrary functions | exit condition invariant; derivative rules for the Newton system |
| C50 | msh save/load of data (mshio structures; file bytes external) | round trip per element |
| C51, C74 | obj export as a list of lines | induction over the list of curves: offsets grow as powers of two |
| C104-C106 | save_svg, to_svg, to_eps | bounding boxes as folds, convex combinations; a PostScript interpreter as specification |
| C99-C103 | get_turning_angle | continuous angle functions and their uniqueness; a half plane containing all tangents; blossoms of the hodograph for the sub-curve polygon; piece by piece sums |
| C52, C76-C80 | auto-generated coefficient functions, compute_inflections / compute_singularities / reduce_turning_angle | control point lists as Bernstein sums and hodographs, ring; root finder lemmas; loop invariants over the pieces |
| C107 | get_control_point_preimage (Greville parameters) | de Boor triangle of the averages gives t; tensor sums of affine data |
| C108 | BSpline compute_inflections / compute_singularities | neighbouring knots and polynomial pieces as specification; conversion to Bezier pieces, uniqueness of derivatives on an interval, C78/C98 per piece |
| C109, C110 | Bezier and B-spline evaluation in IEEE arithmetic | the loops as an arithmetic-free triangle for any scalar type; one rounded interpolation step (Flocq's error lemmas); induction over the triangle against the exact one |
| C111 | end points and split in IEEE arithmetic | products with 0 and 1 and sums with 0 are exact; rounded addition commutes |
| C112 | bs_evaluate at NaN and infinities | the comparisons of the search case by case; skipping equal knots stays below a non-empty last span |
| C113 | bz_evaluate_derivative in IEEE arithmetic | exact small integers, one rounded difference and product, then the triangle with initial errors |
| C114 | periodic evaluation in IEEE arithmetic | std::fmod on mantissas is exact; adding the period rounds once; a format number below fl(b - a) is at most b - a, so parameters from the lower end upwards stay in the domain; refutation by a run in double |
| C115, C116 | rational evaluation in IEEE arithmetic | the homogeneous triangle with a bound per coordinate, means of perturbed data, one rounded quotient; refutation by a run in double |
| C117 | repeated splitting in IEEE arithmetic | the de Casteljau triangle with a bound per entry, summed over the cuts |
| C118, C119 | Bezier and B-spline patches in IEEE arithmetic | two stages of the curve bound; the second is a mean of the errors of the first |
| C120 | B-spline derivatives in IEEE arithmetic | rounded difference quotients, then the triangle of points that already carry an error |
| C121 | knot insertion in IEEE arithmetic | relation between the rounded and the exact run, indexed by the round; then C17 for the exact run and convexity of the basis |
| C122 | conversion to Bezier segments in IEEE arithmetic | C121 for a curve that already carries an error, through the saturation loop; C19 for the exact run |
| C123 | splitting of B-spline curves in IEEE arithmetic | as C121: relation between the rounded and the exact run, then C20 for the exact pieces |
| C124 | degree elevation in IEEE arithmetic | as C121, the level of the relation counts elevations; C10 for the exact run |
| C125 | subcurves in IEEE arithmetic | relation between the rounded and the exact blossom, indexed by the rounds; C08 for the exact run |
| C126 | second derivatives in IEEE arithmetic | two rounds of coefficient errors fed to the triangle bound of C113; C06 for the exact run |
| C127 | second derivatives of B-splines in IEEE arithmetic | two rounds of quotient errors fed to the de Boor bound of C120; C16 for the exact run |
| C128 | rational Bezier patches in IEEE arithmetic | per-coordinate version of C118 fed to the weighted-mean bound of C115, grid flattened to a list |
| C129 | NURBS patches in IEEE arithmetic | per-coordinate version of C119 fed to the weighted-mean bound of C115, grid flattened as in C128 |
| C130 | derivatives of Bezier patches in IEEE arithmetic | C109 for the first stage, C113 for the second, exact derivatives of near curves are near |
| C131 | derivatives of the degree-specialised Bezier classes in IEEE arithmetic | C109 for the two points, the scaled difference of C113 |
| C132 | derivatives of Bezier patches of low template degree in IEEE arithmetic | as C130, with C131 for the second stage |
| C133 | second derivatives of Bezier patches in IEEE arithmetic | as C130, with C126 for the second stage |
| C53 | is_closed | unfolding against a spec |
| C54 | BSpline::elevate_degree, NURBS::elevate_degree | composition of C10, C19, C22 (BSplineElevate*.v); for NURBS a quotient estimate (NurbsElevate.v) |
| C55 | NURBS ops | homogeneous curve lemmas |
| C91 | remove_knot, num_copies above the multiplicity | refutation by rational runs (RemoveRefute.v); a loop left early is left at the same point with more rounds |
| C92 | NURBS::remove_knot | C18 on the homogeneous curve, quotient estimate of C54 (NurbsRemove.v); refutation by a rational run |
| C93 | inverse_arc_length of curves and patches | invariants of the iteration at constant speed (ArcInverse.v); refutation for every such curve; fixed point argument for the true part |

## 4. Trusted base

Coq's kernel; the axioms listed by `Print Assumptions` (see below); the faithfulness of the hand
translation (each definition cites its source lines). Exact real arithmetic replaces floating point, except
in C109-C133, where the same definitions run on the binary64 / binary32 numbers of Flocq
(`IEEE754.BinarySingleNaN`, round to nearest even); there the trusted base includes Flocq's definitions of
the operations and the assumption that the compiler uses neither extended precision, fused multiply-add
nor -ffast-math. Relations between the two are proved only where a theorem says so.
Eigen, the SVD / eigenvalue solvers, mshio, streams and files are not modelled.

Axioms. Every property theorem is followed by `Print Assumptions` in its `Prop*.v` file. The only
axioms that appear are those of the standard library:

* `ClassicalDedekindReals.sig_not_dec`, `ClassicalDedekindReals.sig_forall_dec` (real numbers),
* `FunctionalExtensionality.functional_extensionality_dep` (used by the standard real numbers),
* `Classical_Prop.classic` (where a standard library or Coquelicot lemma about limits / integrals needs it).

No axiom, parameter, functor or module type is declared in this development.

## 5. What is modelled

| model file | code | not modelled |
|------------|------|--------------|
| `ModelCurve` | `CurveBase.h`: in_domain, is_closed, curvature, unwrap_parameter, newton_raphson, approximate inverse | turning angle (see `ModelTurning`) |
| `ModelBezier` | `Bezier.h` generic class and degrees 0-3, `BezierBase.h`, `split.h` (Bezier), `hodograph.h` (Bezier) | |
| `ModelBSpline` | `BSplineBase.h` (locate_span, insert_knot, remove_knot, multiplicity, bounds), `BSpline.h` (evaluate, derivatives, convert_to_Bezier, elevate_degree, combine_Beziers), `split.h`, `hodograph.h` (B-spline) | least squares: `ModelFit` |
| `ModelRemove` | `BSplineBase.h` remove_knot and `NURBS.h` remove_knot with a tolerance of any sign | |
| `ModelRational` | `RationalBezier.h`, `NURBS.h`, `conversion.h`, `split.h` (rational), histories of setter calls | |
| `ModelPatchBase` | `PatchBase.h`: domain tests, index, clip_periodic_parameter, Newton, approximate inverse (sampling) | |
| `ModelPatch` | `BezierPatch.h`, `BSplinePatch.h`: initialize, iso curves, evaluate, derivatives, splits, subpatch | least squares: `ModelFit` |
| `ModelPatchRational` | `RationalBezierPatch.h`, `NURBSPatch.h`: initialize, setters, evaluate, derivatives, iso curves, splits, subpatch | get_control_point_and_weight (not called) |
| `ModelLine` | `Line.h` | |
| `ModelRoots` | `PolynomialRootFinder.h`: degrees 0-2, the companion matrix, the filter on its eigenvalues, the fall through | Eigen's eigenvalue solver is a parameter (C97, C98 assume that it lists exactly the complex eigenvalues; the other theorems hold for any) |
| `ModelQuadrature` | `Quadrature.h`, `arc_length.h` (romberg, arc_length, inverse_arc_length of curves and patches), `sample.h` | - |
| `ModelIntersect` | `intersect.h` |  |
| `ModelAuto`, `ModelAutoRational`, `ModelAnalysis` | `internal/auto_inflection_*.h`, `auto_singularity_*.h`, `auto_match_tangent_*.h` (transcribed mechanically from the headers), `compute_inflections`, `compute_singularities`, `reduce_turning_angle` of the four curve classes | get_turning_angle (see `ModelTurning`) |
| `ModelTurning` | `get_turning_angle` of `CurveBase.h` (with its retries), `Bezier.h` (generic and degrees 0 to 3), `BSpline.h`, `RationalBezier.h`, `NURBS.h`, `Line.h`, `Circle.h`, `Ellipse.h` | `atan2` over the reals is `Ratan2` (TrigFacts) |
| `ModelFloat` | the template parameter `_Scalar` as an IEEE 754 format; runs every generic definition | std::fmod (exact in C, three roundings here): see `ModelFloatWrap`; division of a point by a scalar (the model multiplies by the reciprocal, Eigen divides each entry): see `ModelFloatRational` |
| `ModelFloatWrap` | std::fmod, unwrap_parameter and the periodic prologue of evaluate (Bezier, B-spline) on IEEE numbers | |
| `ModelFloatRational` | evaluate of `RationalBezier.h`, `NURBS.h` on IEEE numbers, with the division of each entry | their derivatives in IEEE arithmetic |
| `ModelFloatPatch` | evaluate of `RationalBezierPatch.h`, `NURBSPatch.h` on IEEE numbers, with the division of each entry | periodic directions; derivatives in IEEE arithmetic |
| `ModelExport` | `save_obj.h` as a list of lines | digits printed, opening the file |
| `ModelVector` | `VectorExport.h`, `save_svg.h` as lists of elements / tokens | digits printed, colours and line width of the SVG output, opening the file |
| `ModelInverse` | approximate_inverse_evaluate of `BSplineBase.h`, `BezierBase.h`, `BezierPatch.h` | |
| `ModelInverse2` | approximate_inverse_evaluate of `BSplinePatch.h`, `NURBSPatch.h`, `RationalBezierPatch.h`; get_control_point_preimage of `BSplinePatch.h` | the bounds are computed before the call of the base class version |
| `ModelFit` | form_least_squares_matrix, fit and deform of `Bezier.h`, `BSpline.h`, `BezierPatch.h`, `BSplinePatch.h` | Eigen's bdcSvd().solve() is a parameter (assumed to give a least squares solution); column counts and the conversion between double and Scalar are right by typing; a basis patch is initialised before every evaluation instead of once per basis function |
| `ModelPrimitive` | `Circle.h`, `Ellipse.h`, `Plane.h`, `Cylinder.h`, `Cone.h`, `Sphere.h`, `Torus.h`: initialize, evaluate, derivatives, inverse evaluation.  cos, sin, atan2 and pi are a class `TrigOps`, the theorems use the standard library's `cos`, `sin`, `PI` and an `atan2` built from `atan` | clone, type tags; M_PI is exactly pi |
| `ModelSweep` | `ExtrusionPatch.h`, `RevolutionPatch.h`, `OffsetPatch.h`: initialize, evaluate, derivatives, inverse evaluation; the profile and base are records of their accessors, inverse evaluation and periodic flags | clone, type tags, partial swap/reverse options |
| `ModelSimplex` | `BezierSimplex.h` (whole class): choose, factorial, multi-indices, control points, fit, elevation, evaluation, directional derivative | integers unbounded (a degree above 12 does not compile, int factorial); Eigen's inverse() is a parameter of fit, assumed to be a right inverse |
| `ModelMsh` | `save_msh.h`, `load_msh.h` (all functions), the getters they call, `enums.h`, `num_recommended_samples` | the library mshio is not modelled: its structs are records, writing and reading a file is taken as the identity; Scalar is double, so casts to double are the identity; int and size_t casts are exact, index arithmetic is unbounded; every object is given by its class data and its evaluation functions; the mesh format version and file type are left out |

`Transfer*.v` prove that the B-spline model computes related results on related inputs, for any relation
between scalars and points that the operations respect: a run by `vm_compute` on rationals is a statement
about the real instance, and the knots of a result do not depend on the control points.
