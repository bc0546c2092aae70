(** Knot removal with a tolerance of any sign: a negative one (the default argument is -1) stands for
    10^-6 times the largest extent of the control points.  Used by B-spline and NURBS curves. *)
From Coq Require Import ZArith QArith List Bool.
From Verif Require Import Monad Scalar ModelCurve ModelBezier ModelBSpline ModelRational.
Import ListNotations.
Local Open Scope Z_scope.

Section Remove.
  Context {T : Type} {SO : ScalarOps T} {d : nat}.

  (** Eigen's maxCoeff / minCoeff, as called at BSplineBase.h:198-199; on an empty array they fail an assertion. *)
  Definition max_coeff (l : list T) : res T :=
    match l with [] => Undef | x :: l => Ok (fold_left smax l x) end.
  Definition min_coeff (l : list T) : res T :=
    match l with [] => Undef | x :: l => Ok (fold_left smin l x) end.

  (** BSplineBase.h:198-200: (colwise max - colwise min).maxCoeff() * 1e-6. *)
  Definition default_tol (pts : list (vec T d)) : res T :=
    do l <- mapM (fun i =>
      do a <- max_coeff (map (coord d i) pts);
      do b <- min_coeff (map (coord d i) pts);
      Ok (a - b)%S) (seq 0 d);
    do m <- max_coeff l;
    Ok (m * sofQ (1 # 1000000))%S.

  (** BSplineBase.h:191-286 remove_knot, any tolerance: lines 197-201, then the rest ([bs_remove_knot]).
      The checks of lines 193-195 come first. *)
  Definition bs_remove_knot_any (c : bspline T (vec T d)) (t : T) (num_copies : Z) (tol : T)
      : res (bspline T (vec T d) * Z) :=
    do _ <- assert_ (1 <=? num_copies);
    do b <- bs_in_domain c t;
    do _ <- assert_ b;
    do _ <- bs_validate c;
    do tol <- (if (tol <? s0)%S then default_tol (bs_pts c) else Ok tol);
    bs_remove_knot c t num_copies tol.
End Remove.

(** NURBS.h:126-132 remove_knot, any tolerance; the extent is that of the homogeneous control points. *)
Definition nb_remove_knot_any {T : Type} {SO : ScalarOps T} {d : nat} (c : nurbs T d) (t : T) (multiplicity : Z) (tol : T)
    : res (nurbs T d * Z) :=
  do _ <- nb_validate c;
  do '(hom, r) <- bs_remove_knot_any (nb_hom c) t multiplicity tol;
  do c' <- nb_set_homogeneous hom;
  Ok (c', r).
