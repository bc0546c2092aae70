(** Periodic parameters in IEEE arithmetic: std::fmod is exact, unlike [sfmod] of Scalar.v on
    floating point numbers. *)
From Coq Require Import ZArith QArith Bool List.
From Flocq Require Import Core.Zaux Core.FLX IEEE754.BinarySingleNaN.
From Verif Require Import Monad Scalar ModelCurve ModelBezier ModelBSpline ModelFloat.
Import ListNotations.
Local Open Scope Z_scope.

Section Wrap.
  Context (prec emax : Z) {Hprec : Prec_gt_0 prec} {Hmax : Prec_lt_emax prec emax}.
  Notation num := (binary_float prec emax).
  Local Instance FOw : ScalarOps num := ieee_ops prec emax.

  (** std::fmod of <cmath> as used in CurveBase.h:209 (C11 7.12.10.1 and F.10.7.1): the remainder of the
      truncated quotient, with the sign of the first argument; it is representable, so the final
      normalisation rounds nothing. *)
  Definition bfmod (x y : num) : num :=
    match x, y with
    | B754_finite sx mx ex _, B754_finite _ my ey _ =>
        let e := Z.min ex ey in
        let r := (Zpos mx * 2 ^ (ex - e)) mod (Zpos my * 2 ^ (ey - e)) in
        binary_normalize prec emax Hprec Hmax mode_NE (cond_Zopp sx r) e sx
    | B754_zero _, B754_finite _ _ _ _ => x
    | B754_zero _, B754_infinity _ => x
    | B754_finite _ _ _ _, B754_infinity _ => x
    | _, _ => B754_nan
    end.

  (** CurveBase.h:203-213 unwrap_parameter. *)
  Definition f_unwrap (periodic : bool) (t_min t_max t : num) : res num :=
    do _ <- assert_ periodic;
    let period := ssub t_max t_min in
    let t := sadd (bfmod (ssub t t_min) period) t_min in
    let t := if slt t t_min then sadd t period else t in
    do _ <- assert_ (sle t_min t && sle t t_max);
    Ok t.

  (** Bezier.h:43-51 evaluate (generic class), with the periodic prologue. *)
  Definition f_bz_evaluate {d : nat} (c : bezier (vec num d)) (t : num) : res (vec num d) :=
    do t <- (if bz_periodic c then f_unwrap (bz_periodic c) bz_lower bz_upper t else Ok t);
    bz_evaluate (mk_bezier (bz_pts c)) t.

  (** BSpline.h:72-85 evaluate, with the periodic prologue. *)
  Definition f_bs_evaluate {d : nat} (c : bspline num (vec num d)) (t : num) : res (vec num d) :=
    do t <- (if bs_periodic c then
               do a <- bs_lower c; do b <- bs_upper c; f_unwrap (bs_periodic c) a b t
             else Ok t);
    bs_evaluate (mk_bspline (bs_pts c) (bs_knots c)) t.
End Wrap.
