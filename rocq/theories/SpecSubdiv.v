(** Repeated splitting, for the statement of C117. *)
From Coq Require Import Reals ZArith List.
From Verif Require Import Monad Scalar ModelCurve ModelBezier.
Import ListNotations.

(** A client that splits a Bezier curve (Bezier.h:227-251), keeps the first or (flag [true]) the second
    piece, splits it again, and so on. *)
Fixpoint subdivide {T P : Type} {SO : ScalarOps T} {V : PointOps T P} (cuts : list (T * bool)) (c : bezier P) : res (bezier P) :=
  match cuts with
  | [] => Ok c
  | (t, second) :: cuts =>
      do parts <- bz_split c t;
      do c <- get parts (if second then 1 else 0)%Z;
      subdivide cuts c
  end.

(** The part of the interval [a, b] that such a client ends up with. *)
Fixpoint cut_interval (cuts : list (R * bool)) (a b : R) : R * R :=
  match cuts with
  | [] => (a, b)
  | (t, second) :: cuts =>
      let m := (a + (b - a) * t)%R in
      if second then cut_interval cuts m b else cut_interval cuts a m
  end.
