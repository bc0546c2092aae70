(** Specification of the analysis of B-splines, independent of the model's helpers. *)
From Coq Require Import Reals List.
From Verif Require Import Monad Scalar Spec SpecAnalysis ModelCurve ModelBSpline.
Import ListNotations.
Local Open Scope R_scope.

(** [x] and [y] are neighbouring knots of the domain. *)
Definition neighbours (c : bspline R (vec R 2)) (x y : R) : Prop :=
  In x (bs_knots c) /\ In y (bs_knots c) /\ lower_of (bs_pts c) (bs_knots c) <= x < y /\ y <= upper_of (bs_pts c) (bs_knots c) /\
  forall u, In u (bs_knots c) -> ~ x < u < y.
(** [g] with derivatives [g1] and [g2] continues the piece of the curve between [x] and [y]. *)
Definition piece (c : bspline R (vec R 2)) (x y : R) (g g1 g2 : R -> vec R 2) : Prop :=
  derivs2 g g1 g2 /\ forall t, x <= t < y -> bs_evaluate c t = Ok (g t).
(** Valid knots, distinct ones more than 1e-16 apart, not periodic, the first span of the domain is not empty. *)
Definition plain_bspline (c : bspline R (vec R 2)) : Prop :=
  let p := bspline_degree (bs_pts c) (bs_knots c) in
  valid_bspline (bs_pts c) (bs_knots c) /\ knots_apart (/ IZR (10 ^ 16)) (bs_knots c) /\ bs_periodic c = false /\ nth p (bs_knots c) 0 < nth (p + 1) (bs_knots c) 0.
(** The tangent stops turning, or vanishes, at [t] on the piece between [x] and [y]. *)
Definition inflects (c : bspline R (vec R 2)) (x y t : R) : Prop := exists g g1 g2, piece c x y g g1 g2 /\ cross2 (g1 t) (g2 t) = 0.
Definition stops (c : bspline R (vec R 2)) (x y t : R) : Prop := exists g g1 g2, piece c x y g g1 g2 /\ g1 t = p0.
(** Coefficients of the cross product and of the squared speed of a piece, in the parameter that runs from 0 to 1 along it. *)
Definition inflection_polynomial (c : bspline R (vec R 2)) (x y : R) (ks : list R) : Prop := exists g g1 g2, piece c x y g g1 g2 /\
  forall u, 0 <= u <= 1 -> (y - x) ^ 3 * cross2 (g1 (x + u * (y - x))) (g2 (x + u * (y - x))) = rsum (length ks) (fun k => nth k ks 0 * u ^ k).
Definition speed_polynomial (c : bspline R (vec R 2)) (x y : R) (ks : list R) : Prop := exists g g1 g2, piece c x y g g1 g2 /\
  forall u, 0 <= u <= 1 -> (y - x) ^ 2 * norm2 (g1 (x + u * (y - x))) ^ 2 = rsum (length ks) (fun k => nth k ks 0 * u ^ k).
