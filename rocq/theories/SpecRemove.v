(** The size of a set of points, for the default tolerance of knot removal. *)
From Coq Require Import Reals List.
From Verif Require Import Scalar Spec.
Import ListNotations.
Local Open Scope R_scope.

(** [e] is the longest side of the bounding box of the points: no two of them differ by more in any
    coordinate, and some two do differ by [e] in some coordinate. *)
Definition longest_side {d} (pts : list (vec R d)) (e : R) : Prop :=
  (forall i a b, (i < d)%nat -> In a pts -> In b pts -> coord d i a - coord d i b <= e) /\
  exists i a b, (i < d)%nat /\ In a pts /\ In b pts /\ coord d i a - coord d i b = e.
