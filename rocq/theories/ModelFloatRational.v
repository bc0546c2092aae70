(** Rational curves in IEEE arithmetic: Eigen divides each entry of a row, unlike [pdivs] of Scalar.v,
    and a division by zero gives an infinity or NaN instead of stopping. *)
From Coq Require Import ZArith QArith Bool List.
From Flocq Require Import Core.Zaux Core.FLX IEEE754.BinarySingleNaN.
From Verif Require Import Monad Scalar ModelCurve ModelBezier ModelBSpline ModelRational ModelFloat ModelFloatWrap.
Import ListNotations.
Local Open Scope Z_scope.

Section Rational.
  Context (prec emax : Z) {Hprec : Prec_gt_0 prec} {Hmax : Prec_lt_emax prec emax}.
  Notation num := (binary_float prec emax).
  Local Instance FOr : ScalarOps num := ieee_ops prec emax.

  (** RationalBezier.h:42 / NURBS.h:55: [p.head<_dim>() / p[_dim]]. *)
  Definition f_h_point {d : nat} (p : vec num (S d)) : vec num d :=
    vmap d (fun x => Bdiv mode_NE x (vlast d p)) (vhead d p).

  (** RationalBezier.h:38-43 evaluate. *)
  Definition f_rb_evaluate {d : nat} (c : rbezier num d) (t : num) : res (vec num d) :=
    do _ <- rb_validate c;
    do p <- f_bz_evaluate prec emax (rb_hom c) t;
    Ok (f_h_point p).

  (** NURBS.h:51-56 evaluate. *)
  Definition f_nb_evaluate {d : nat} (c : nurbs num d) (t : num) : res (vec num d) :=
    do _ <- nb_validate c;
    do p <- f_bs_evaluate prec emax (nb_hom c) t;
    Ok (f_h_point p).
End Rational.
