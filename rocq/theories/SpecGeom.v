(** Geometric notions used in statements (nothing here comes from the C++ code). *)
From Coq Require Import Reals List ZArith.
From Verif Require Import Scalar Spec.
Import ListNotations.
Local Open Scope R_scope.

(** Inner product and Euclidean distance of points of dimension d. *)
Definition inner {d} (a b : vec R d) : R := rsum d (fun i => coord d i a * coord d i b).
Definition edist {d} (a b : vec R d) : R := sqrt (rsum d (fun i => (coord d i a - coord d i b) ^ 2)).
