(** Definitions used in the statements about surfaces (nothing here comes from the C++ code). *)
From Coq Require Import Reals List ZArith.
From Verif Require Import Scalar Spec.
Import ListNotations.
Local Open Scope R_scope.

(** sum_ij bu_i bv_j P_ij for an [nu] x [nv] grid stored row by row. *)
Definition tensor_sum {P} {V : PointOps R P} (nu nv : nat) (bu bv : nat -> R) (grid : list P) : P :=
  psum nu (fun i => psum nv (fun j => pmul (bu i * bv j) (nth (i * nv + j) grid p0))).

(** [t'] is the parameter at which a (possibly periodic) direction with domain [lo,hi] is evaluated
    when asked for [t]. *)
Definition wraps (periodic : bool) (lo hi t t' : R) : Prop :=
  if periodic then lo <= t' < hi /\ exists k : Z, t' = t + IZR k * (hi - lo) else t' = t.

(** Partial derivatives of f : R x R -> R^d, first, second and mixed (both orders). *)
Definition partials {d} (f fu fv fuu fvv fuv : R -> R -> vec R d) (u v : R) : Prop :=
  vderiv (fun x => f x v) u (fu u v) /\ vderiv (fun y => f u y) v (fv u v) /\
  vderiv (fun x => fu x v) u (fuu u v) /\ vderiv (fun y => fv u y) v (fvv u v) /\
  vderiv (fun y => fu u y) v (fuv u v) /\ vderiv (fun x => fv x v) u (fuv u v).

(** One parameter direction of a B-spline surface: degree [p], knots.  The number of control points in
    this direction is #knots - p - 1, the domain is [knots[p], knots[#knots-p-1]]. *)
Definition dir_count (p : nat) (knots : list R) : nat := length knots - p - 1.
Definition dir_lo (p : nat) (knots : list R) : R := nth p knots 0.
Definition dir_hi (p : nat) (knots : list R) : R := nth (dir_count p knots) knots 0.

Record valid_dir (p : nat) (knots : list R) : Prop := {
  vd_len : (2 * p + 2 <= length knots)%nat;
  vd_sorted : nondecreasing knots;
  vd_domain : dir_lo p knots < dir_hi p knots;
}.

(** A parameter the direction can be evaluated at: any parameter if periodic, a parameter of the domain
    otherwise; if the first span of the domain is empty, the lower end is excluded. *)
Definition dir_param (periodic : bool) (p : nat) (knots : list R) (t : R) : Prop :=
  (periodic = true \/ dir_lo p knots <= t <= dir_hi p knots) /\
  (nth p knots 0 < nth (p + 1) knots 0 \/ (periodic = false /\ dir_lo p knots < t)).

(** No knot between the first and the last has multiplicity above the degree. *)
Definition no_full_knot (p : nat) (knots : list R) : Prop :=
  forall i, (1 <= i)%nat -> (i + p + 1 < length knots)%nat -> nth i knots 0 < nth (i + p) knots 0.

(** A direction the split theorems are about: valid, distinct knots at least 1e-16 apart, non-empty first span. *)
Record regular_dir (p : nat) (knots : list R) : Prop := {
  rd_valid : valid_dir p knots;
  rd_apart : knots_apart (/ IZR (10 ^ 16)) knots;
  rd_start : nth p knots 0 < nth (p + 1) knots 0;
}.
Definition apart_from (knots : list R) (t : R) : Prop :=
  forall w, In w knots -> w = t \/ / IZR (10 ^ 16) < Rabs (w - t).

(** [x] is a parameter of the part [lo,hi] of a direction at which the part must have the value of the whole.
    The end [hi] counts if it is the end of a non-periodic domain or a knot of multiplicity at most [p] (a knot
    of multiplicity p+1 is a jump, and the value of the whole there is the one from the right). *)
Definition part_param (periodic : bool) (p : nat) (knots : list R) (lo hi x : R) : Prop :=
  lo <= x /\
  (x < hi \/ (x = hi /\ ((hi = dir_hi p knots /\ periodic = false) \/
                         (hi < dir_hi p knots /\ (count_occ Req_EM_T knots hi <= p)%nat)))).
