(** Definitions used in the statements about circles, quadrics and swept surfaces (nothing here comes from the C++ code). *)
From Coq Require Import Reals List ZArith.
From Verif Require Import Monad Scalar Spec SpecGeom SpecPatch.
Local Open Scope R_scope.

Definition orthonormal2 {d} (a b : vec R d) : Prop := inner a a = 1 /\ inner b b = 1 /\ inner a b = 0.
Definition orthonormal3 {d} (a b c : vec R d) : Prop :=
  orthonormal2 a b /\ inner c c = 1 /\ inner a c = 0 /\ inner b c = 0.

(** The coordinate of [q] along the unit vector [a], measured from [o]. *)
Definition along {d} (o a q : vec R d) : R := inner (psub q o) a.
(** [q] has no component orthogonal to the plane through [o] spanned by [a] and [b]. *)
Definition in_plane {d} (o a b q : vec R d) : Prop :=
  forall n : vec R d, inner a n = 0 -> inner b n = 0 -> along o n q = 0.

(** [f] has first derivative [f1] and second derivative [f2] at every parameter. *)
Definition two_derivatives {d} (f f1 f2 : R -> vec R d) : Prop :=
  forall t, vderiv f t (f1 t) /\ vderiv f1 t (f2 t).

(** The length of [lo,hi] is, up to [tol], a whole number of turns. *)
Definition whole_turns (tol lo hi : R) : Prop := exists k : Z, Rabs (hi - lo - 2 * PI * IZR k) < tol.

(** The six accessors of a patch return, for all parameters, a function and its partial derivatives. *)
Definition accessors_exact {d} (e du dv duu dvv duv : R -> R -> res (vec R d)) : Prop :=
  exists f fu fv fuu fvv fuv : R -> R -> vec R d,
    (forall u v, e u v = Ok (f u v) /\ du u v = Ok (fu u v) /\ dv u v = Ok (fv u v) /\ duu u v = Ok (fuu u v) /\ dvv u v = Ok (fvv u v) /\ duv u v = Ok (fuv u v)) /\
    (forall u v, partials f fu fv fuu fvv fuv u v).

(** Ten times the machine epsilon of double precision. *)
Definition eps10 : R := 10 / IZR (2 ^ 52).

(** The cross product of space. *)
Definition cross_vec (a b : vec R 3) : vec R 3 :=
  let x i := coord 3 i a in let y i := coord 3 i b in
  (x 1%nat * y 2%nat - x 2%nat * y 1%nat, (x 2%nat * y 0%nat - x 0%nat * y 2%nat, (x 0%nat * y 1%nat - x 1%nat * y 0%nat, tt))).
(** The part of [x] orthogonal to the unit vector [a]. *)
Definition across {d} (a x : vec R d) : vec R d := psub x (pmul (inner x a) a).
(** [q] is [p] turned by the angle [u] about the axis through [o] with unit direction [a] (right hand rule). *)
Definition turned (o a : vec R 3) (u : R) (p q : vec R 3) : Prop :=
  inner (psub q o) a = inner (psub p o) a /\
  across a (psub q o) = padd (pmul (cos u) (across a (psub p o))) (pmul (sin u) (cross_vec a (psub p o))).
(** [q] is, coordinate by coordinate, the value of [F'] at a point closer than [h] to [u]. *)
Definition near_value {d} (F' : R -> vec R d) (u h : R) (q : vec R d) : Prop :=
  forall i, (i < d)%nat -> exists x, u - h < x < u + h /\ coord d i q = coord d i (F' x).
(** The millionth part of a range. *)
Definition fd_step (lo hi : R) : R := (hi - lo) / 1000000.
