(** Line.h. *)
From Verif Require Import Monad Scalar ModelCurve.
Local Open Scope Z_scope.

Section Line.
  Context {T P : Type} {SO : ScalarOps T} {V : PointOps T P}.
  Local Open Scope scal_scope.

  (** Line.h:140-143 members. *)
  Record line := { ln_location : P; ln_direction : P; ln_lower : T; ln_upper : T }.

  (** Line.h:39-42 initialize; the assertions do not hold: [Undef]. *)
  Definition ln_initialize (c : line) : res line :=
    do _ <- assert_ (ln_lower c <=? ln_upper c);
    do _ <- assert_ (seps <? sqnorm (ln_direction c));
    Ok c.
  (** Line.h:56 in_domain *)
  Definition ln_in_domain (c : line) (t : T) : bool := (ln_lower c <=? t) && (t <=? ln_upper c).
  (** Line.h:61 evaluate, 68 and 70 derivatives *)
  Definition ln_evaluate (c : line) (t : T) : res P := Ok (ln_location c + t *: ln_direction c)%P.
  Definition ln_evaluate_derivative (c : line) (t : T) : res P := Ok (ln_direction c).
  Definition ln_evaluate_2nd_derivative (c : line) (t : T) : res P := Ok p0.
  (** Line.h:72-80 approximate_inverse_evaluate (the level is ignored) *)
  Definition ln_approximate_inverse_evaluate (c : line) (p : P) (lower upper : T) (level : nat) : res T :=
    do t <- ddiv (pdot (p - ln_location c)%P (ln_direction c)) (sqnorm (ln_direction c));
    if t <? lower then Ok lower else if upper <? t then Ok upper else Ok t.
  (** Line.h:63-66 inverse_evaluate *)
  Definition ln_inverse_evaluate (c : line) (p : P) : res T :=
    ln_approximate_inverse_evaluate c p (ln_lower c) (ln_upper c) 3.
  (** The virtual functions used by CurveBase, save_obj, sample, arc_length and intersect. *)
  Definition ln_ops (c : line) : curve_ops T P :=
    {| c_lower := ln_lower c; c_upper := ln_upper c; c_eval := ln_evaluate c; c_d1 := ln_evaluate_derivative c;
       c_d2 := ln_evaluate_2nd_derivative c |}.
End Line.
Arguments line : clear implicits.
