(** Specification of planar curve analysis, independent of the model. *)
From Coq Require Import Reals List Sorted.
From Verif Require Import Scalar Spec.
Import ListNotations.
Local Open Scope R_scope.

(** Strictly increasing numbers of the interval [a, b]. *)
Definition in_range (a b : R) (l : list R) : Prop := StronglySorted Rlt l /\ Forall (fun x => a <= x <= b) l.
(** The cross product of two plane vectors. *)
Definition cross2 (v w : vec R 2) : R := coord 2 0 v * coord 2 1 w - coord 2 1 v * coord 2 0 w.
(** [f1] and [f2] are the first and second derivative of [f]. *)
Definition derivs2 (f f1 f2 : R -> vec R 2) : Prop := (forall t, vderiv f t (f1 t)) /\ (forall t, vderiv f1 t (f2 t)).
(** A polynomial c + b t + a t^2 whose degree and number of roots survive a perturbation of size [e]. *)
Definition clear_quadratic (e a b c : R) : Prop :=
  (e <= Rabs a /\ (b * b - 4 * a * c < 0 \/ b * b - 4 * a * c = 0 \/ e <= b * b - 4 * a * c)) \/
  (a = 0 /\ e <= Rabs b) \/ (a = 0 /\ b = 0 /\ e <= Rabs c).
(** Euclidean length of a plane vector, and the sum of the unit vectors along [v] and [w]. *)
Definition norm2 (v : vec R 2) : R := sqrt (coord 2 0 v ^ 2 + coord 2 1 v ^ 2).
Definition bisector (v w : vec R 2) : vec R 2 :=
  (coord 2 0 v / norm2 v + coord 2 0 w / norm2 w, (coord 2 1 v / norm2 v + coord 2 1 w / norm2 w, tt)).
