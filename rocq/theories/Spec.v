(** Mathematical specifications.  Nothing in this file mentions the model of the code: these are the
    textbook notions the property theorems are stated with. *)
From Coq Require Import Reals Lra List ZArith.
From Verif Require Import Scalar.
Import ListNotations.
Local Open Scope R_scope.

(** Finite sums of points: [psum n f = f 0 + ... + f (n-1)]. *)
Fixpoint psum {P} {V : PointOps R P} (n : nat) (f : nat -> P) : P :=
  match n with
  | O => p0
  | S n' => padd (psum n' f) (f n')
  end.

(** Finite sums of real numbers. *)
Definition rsum (n : nat) (f : nat -> R) : R := psum (P := R) n f.

(** Bernstein polynomial of degree [n] and index [i]; [C n i] is the standard library's binomial
    coefficient n!/(i!(n-i)!). *)
Definition bernstein (n i : nat) (t : R) : R := C n i * t ^ i * (1 - t) ^ (n - i).

(** The point sum_i B_i^n(t) P_i for the control polygon [pts] (degree [length pts - 1]). *)
Definition bernstein_curve {P} {V : PointOps R P} (pts : list P) (t : R) : P :=
  psum (length pts) (fun i => pmul (bernstein (length pts - 1) i t) (nth i pts p0)).

(** Derivative of a vector valued function, coordinate by coordinate. *)
Definition vderiv {d : nat} (f : R -> vec R d) (t : R) (v : vec R d) : Prop :=
  forall i, (i < d)%nat -> derivable_pt_lim (fun x => coord d i (f x)) t (coord d i v).

(** Derivative relative to a set [D] of parameters (one-sided derivative at an end of an interval). *)
Definition deriv_within (D : R -> Prop) (f : R -> R) (t l : R) : Prop :=
  forall eps, 0 < eps -> exists delta, 0 < delta /\
    forall h, h <> 0 -> Rabs h < delta -> D (t + h) -> Rabs ((f (t + h) - f t) / h - l) < eps.

Definition vderiv_within (D : R -> Prop) {d : nat} (f : R -> vec R d) (t : R) (v : vec R d) : Prop :=
  forall i, (i < d)%nat -> deriv_within D (fun x => coord d i (f x)) t (coord d i v).

(** Convex combinations of a list of points. *)
Definition convex_comb {P} {V : PointOps R P} (pts : list P) (q : P) : Prop :=
  exists w : nat -> R,
    (forall i, (i < length pts)%nat -> 0 <= w i) /\
    rsum (length pts) w = 1 /\
    q = psum (length pts) (fun i => pmul (w i) (nth i pts p0)).

(** Knot vectors are functions [U : Z -> R] in the specification.

    Cox-de Boor basis with the usual conventions: degree 0 functions are right continuous (half open
    intervals), except at the end [tmax] of the domain, where they are left continuous; 0/0 counts
    as 0. *)
Definition frac0 (a b : R) : R := if Req_EM_T b 0 then 0 else a / b.

Definition N0 (U : Z -> R) (tmax : R) (i : Z) (t : R) : R :=
  if Req_EM_T t tmax then
    if Rlt_dec (U i) t then if Rle_dec t (U (i + 1)%Z) then 1 else 0 else 0
  else
    if Rle_dec (U i) t then if Rlt_dec t (U (i + 1)%Z) then 1 else 0 else 0.

Fixpoint cox (U : Z -> R) (tmax : R) (p : nat) (i : Z) (t : R) : R :=
  match p with
  | O => N0 U tmax i t
  | S q =>
      frac0 (t - U i) (U (i + Z.of_nat p)%Z - U i) * cox U tmax q i t
      + frac0 (U (i + Z.of_nat p + 1)%Z - t) (U (i + Z.of_nat p + 1)%Z - U (i + 1)%Z)
        * cox U tmax q (i + 1) t
  end.

(** Knot [i] of a list of knots. *)
Definition knot_of (knots : list R) (i : Z) : R := nth (Z.to_nat i) knots 0.

(** The B-spline curve of degree p = #knots - #pts - 1: sum_i N_{i,p}(t) P_i. *)
Definition bspline_degree {P} (pts : list P) (knots : list R) : nat :=
  length knots - length pts - 1.
Definition bspline_curve {P} {V : PointOps R P} (pts : list P) (knots : list R) (t : R) : P :=
  let U := knot_of knots in
  psum (length pts) (fun i =>
    pmul (cox U (U (Z.of_nat (length pts))) (bspline_degree pts knots) (Z.of_nat i) t)
         (nth i pts p0)).

(** A valid B-spline: at least one more knot than control points (degree >= 0), non-decreasing
    knots, non-empty domain [knots[p], knots[n]] where n is the number of control points. *)
Definition nondecreasing (knots : list R) : Prop :=
  forall i j, (i <= j < length knots)%nat -> nth i knots 0 <= nth j knots 0.

Record valid_bspline {P} (pts : list P) (knots : list R) : Prop := {
  vb_len : (length pts + 1 <= length knots)%nat;
  vb_pts : (bspline_degree pts knots < length pts)%nat;
  vb_sorted : nondecreasing knots;
  vb_domain : nth (bspline_degree pts knots) knots 0 < nth (length pts) knots 0;
}.

(** The first span of the domain is not empty, or no p+1 of the knots around the start of the domain
    coincide (so that the curve is continuous there). *)
Definition regular_start {P} (pts : list P) (knots : list R) : Prop :=
  let p := bspline_degree pts knots in
  nth p knots 0 < nth (p + 1) knots 0 \/
  ((1 <= p)%nat /\ forall i, (1 <= i <= p)%nat -> nth i knots 0 < nth (i + p) knots 0).

(** Different knots are more than [tol] apart. *)
Definition knots_apart (tol : R) (knots : list R) : Prop :=
  forall i j, (i <= j < length knots)%nat -> nth i knots 0 < nth j knots 0 ->
    tol < nth j knots 0 - nth i knots 0.

(** The ends of the parameter domain: knots[p] and knots[n]. *)
Definition lower_of {P} (pts : list P) (knots : list R) : R := nth (bspline_degree pts knots) knots 0.
Definition upper_of {P} (pts : list P) (knots : list R) : R := nth (length pts) knots 0.

(** The distinct knots strictly inside the domain. *)
Definition interior_knots {P} (pts : list P) (knots : list R) : list R :=
  nodup Req_EM_T (filter (fun u => if Rlt_dec (lower_of pts knots) u then if Rlt_dec u (upper_of pts knots) then true else false else false) knots).

(** The parameters of knot span [k]: half open, closed for the last span of the domain. *)
Definition span_set (knots : list R) (upper : R) (k : nat) (x : R) : Prop :=
  nth k knots 0 <= x < nth (k + 1) knots 0 \/ (nth (k + 1) knots 0 = upper /\ nth k knots 0 <= x <= upper).

(** Weighted means (rational curves): basis values [b i], weights [ws], points [pts]. *)
Definition weight_sum (n : nat) (b : nat -> R) (ws : list R) : R := rsum n (fun i => b i * nth i ws 0).
Definition weighted_mean {d : nat} (n : nat) (b : nat -> R) (ws : list R) (pts : list (vec R d)) : vec R d :=
  pmul (/ weight_sum n b ws) (psum n (fun i => pmul (b i * nth i ws 0) (nth i pts p0))).

(** The basis functions of a Bezier curve and of a B-spline curve with [n] control points. *)
Definition bezier_basis (n : nat) (t : R) (i : nat) : R := bernstein (n - 1) i t.
Definition bspline_basis (n : nat) (knots : list R) (t : R) (i : nat) : R :=
  cox (knot_of knots) (knot_of knots (Z.of_nat n)) (length knots - n - 1) (Z.of_nat i) t.

(** Replacing entry [i] of a list. *)
Definition replace_nth {A} (l : list A) (i : nat) (a : A) : list A := firstn i l ++ a :: skipn (S i) l.
