(** Repeated subcurves (C125). *)
From Coq Require Import Reals List.
From Verif Require Import Monad Scalar ModelCurve ModelBezier.
Import ListNotations.
Local Open Scope R_scope.

(** The subcurve over each interval of the list in turn (Bezier.h:267-304, applied repeatedly). *)
Fixpoint subcurves {T P} {S : ScalarOps T} {O : PointOps T P} (l : list (T * T)) (c : bezier P) : res (bezier P) :=
  match l with
  | [] => Ok c
  | (a, b) :: r => bind (bz_subcurve c a b) (subcurves r)
  end.

(** The parameter of the given curve that belongs to the parameter [s] of the last subcurve. *)
Fixpoint nested (l : list (R * R)) (s : R) : R :=
  match l with
  | [] => s
  | (a, b) :: r => a + nested r s * (b - a)
  end.
