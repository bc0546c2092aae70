(** The template parameter [_Scalar] instantiated with IEEE 754 floating point numbers.

    Every class in /repo/include/nanospline is a template over [_Scalar] (Bezier.h:22, BSpline.h:14, ...);
    the library is used with [double] (tests/test_Bezier.cpp:12).  The instance below makes the model run in that arithmetic: every
    operation rounds to nearest, ties to even, overflows to infinity and signals no trap.  The
    operations are those of Flocq (BinarySingleNaN: all NaNs are one value).  Assumptions about the
    compiler: no extended precision, no contraction to fused multiply-add, no -ffast-math.

    Simplified: a decimal literal [n/d] is the rounded quotient of the rounded [n] and [d], which is the
    literal correctly rounded whenever [n] and [d] are representable (1e-16, 2^-52 are); [sfmod]
    (Scalar.v) rounds three times whereas std::fmod is exact, so periodic curves use ModelFloatWrap.v;
    [pdivs] multiplies by the reciprocal whereas Eigen divides each entry, so rational curves use
    ModelFloatRational.v.  With [float], the code computes [1.0 - t] (Bezier.h:405, BSpline.h:508) in double
    and rounds the difference again; double has more than twice the digits, so the second rounding
    gives what one rounding would have given.  The comparison with 1e-16 (BSpline.h:504) is done in
    double as well; it differs from the one here only for a difference equal to the float next to 1e-16. *)
From Coq Require Import ZArith QArith Bool.
From Flocq Require Import Core.Zaux Core.FLX IEEE754.BinarySingleNaN.
From Verif Require Import Monad Scalar.
Local Open Scope Z_scope.

Section IEEE.
  Context (prec emax : Z) {Hprec : Prec_gt_0 prec} {Hmax : Prec_lt_emax prec emax}.
  Notation num := (binary_float prec emax).

  (** int -> Scalar conversion, as in [Scalar(degree)] (Bezier.h:63). *)
  Definition bofZ (z : Z) : num := binary_normalize prec emax Hprec Hmax mode_NE z 0 false.

  (** Decimal literals such as 1e-16 (BSpline.h:504). *)
  Definition bofQ (q : Q) : num := Bdiv mode_NE (bofZ (Qnum q)) (bofZ (Zpos (Qden q))).

  (** std::floor followed by a conversion to int (BSplineBase.h:51); infinities
      and NaN give 0. *)
  Definition bfloor (x : num) : Z :=
    match x with
    | B754_finite s m e _ =>
        if 0 <=? e then cond_Zopp s (Zpos m) * 2 ^ e else cond_Zopp s (Zpos m) / 2 ^ (- e)
    | _ => 0
    end.

  (** The arithmetic of [_Scalar] (Bezier.h:22, CurveBase.h:16). *)
  Definition ieee_ops : ScalarOps num := {|
    s0 := bofZ 0;
    s1 := bofZ 1;
    sadd := Bplus mode_NE;
    ssub := Bminus mode_NE;
    smul := Bmult mode_NE;
    sdiv := Bdiv mode_NE;
    sopp := Bopp;
    sle := Bleb;
    slt := Bltb;
    seq_ := Beqb;
    sofZ := bofZ;
    sofQ := bofQ;
    sfloor := bfloor;
    ssqrt := Bsqrt mode_NE |}.
End IEEE.

Definition prec64 : Prec_gt_0 53 := eq_refl.
Definition max64 : Prec_lt_emax 53 1024 := eq_refl.
Definition prec32 : Prec_gt_0 24 := eq_refl.
Definition max32 : Prec_lt_emax 24 128 := eq_refl.

(** [double] (tests/test_Bezier.cpp:12) and [float] (src/forward_declaration_match_tangent.cpp:25). *)
Definition double := binary_float 53 1024.
Definition float32 := binary_float 24 128.
Definition double_ops : ScalarOps double := @ieee_ops 53 1024 prec64 max64.
Definition float32_ops : ScalarOps float32 := @ieee_ops 24 128 prec32 max32.
