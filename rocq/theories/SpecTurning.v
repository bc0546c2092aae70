(** Turning of plane curves, independent of the model. *)
From Coq Require Import Reals List.
From Verif Require Import Scalar Spec SpecGeom SpecAnalysis.
Import ListNotations.
Local Open Scope R_scope.

(** The plane vector [v] points in the direction with angle [phi]. *)
Definition heading (v : vec R 2) (phi : R) : Prop :=
  coord 2 0 v = norm2 v * cos phi /\ coord 2 1 v = norm2 v * sin phi.
(** The tangent [f1] turns by the signed angle [theta] (counter clockwise positive, full turns counted) on [a, b]: it follows a
    continuous angle that grows by [theta]. *)
Definition turning (f1 : R -> vec R 2) (a b theta : R) : Prop :=
  exists phi : R -> R, continuity phi /\ (forall t, a <= t <= b -> heading (f1 t) (phi t)) /\ theta = phi b - phi a.
(** [theta] is the oriented angle from [v] to [w]. *)
Definition oriented_angle (v w : vec R 2) (theta : R) : Prop :=
  - PI < theta <= PI /\ norm2 v * norm2 w * cos theta = inner v w /\ norm2 v * norm2 w * sin theta = cross2 v w.
(** Every edge of the polygon has a positive component along [n]. *)
Definition advancing (n : vec R 2) (pts : list (vec R 2)) : Prop :=
  forall i, (S i < length pts)%nat -> 0 < inner n (psub (nth (S i) pts p0) (nth i pts p0)).
