(** Definitions used in the statements about least squares fitting (nothing here comes from the C++ code). *)
From Coq Require Import Reals List.
From Verif Require Import Scalar Spec SpecGeom SpecPatch.
Import ListNotations.
Local Open Scope R_scope.

(** The sum of the squared distances between corresponding points. *)
Fixpoint sqerr {d} (xs vs : list (vec R d)) : R :=
  match xs, vs with
  | x :: xs, v :: vs => edist x v ^ 2 + sqerr xs vs
  | _, _ => 0
  end.

(** The matrix, as a list of rows, with the values of the [n] basis functions [B t] at the parameters. *)
Definition basis_matrix {A} (n : nat) (B : A -> nat -> R) (params : list A) : list (list R) :=
  map (fun t => map (B t) (seq 0 n)) params.

(** The basis functions of a tensor product, numbered row by row. *)
Definition tensor_basis (nv : nat) (bu bv : nat -> R) (q : nat) : R := bu (q / nv)%nat * bv (q mod nv)%nat.

(** A row of a matrix times the column of points [y]. *)
Definition row_apply {d} (n : nat) (row : list R) (y : list (vec R d)) : vec R d :=
  psum n (fun j => pmul (nth j row 0) (nth j y p0)).

(** [x] is a least squares solution of M x = vs with [n] rows. *)
Definition least_squares {d} (n : nat) (M : list (list R)) (vs x : list (vec R d)) : Prop :=
  length x = n /\
  forall y, length y = n ->
    sqerr (map (fun row => row_apply n row x) M) vs <= sqerr (map (fun row => row_apply n row y) M) vs.

(** Corresponding points added. *)
Definition add_points {d} (xs ys : list (vec R d)) : list (vec R d) :=
  map (fun q => padd (fst q) (snd q)) (combine xs ys).

(** A parameter inside the domain of a B-spline direction; the end of the domain of a periodic one is excluded
    (it is evaluated at the start). *)
Definition own_param (periodic : bool) (p : nat) (knots : list R) (t : R) : Prop :=
  dir_param false p knots t /\ (periodic = true -> t < dir_hi p knots).
