(** Complex roots of real polynomials and complex eigenvalues of real matrices, for the statements about
    PolynomialRootFinder.h of degree three and more. *)
From Coq Require Import Reals List.
From Coquelicot Require Import Complex.
Import ListNotations.
Local Open Scope R_scope.

(** f 0 + ... + f (n-1) *)
Fixpoint csum (n : nat) (f : nat -> C) : C := match n with O => (RtoC 0) | S m => (csum m f + f m)%C end.
Fixpoint cpow (z : C) (n : nat) : C := match n with O => (RtoC 1) | S m => (z * cpow z m)%C end.
(** c_0 + c_1 z + ... + c_n z^n *)
Definition cpoly (n : nat) (coeffs : list R) (z : C) : C := csum (S n) (fun i => (RtoC (nth i coeffs 0%R) * cpow z i)%C).
(** A matrix is the list of its rows.  z is an eigenvalue: m v = z v for a vector v that is not zero. *)
Definition eigenvalue (m : list (list R)) (z : C) : Prop :=
  exists v : nat -> C, (exists i, (i < length m)%nat /\ v i <> (RtoC 0)) /\
    forall i, (i < length m)%nat -> csum (length m) (fun j => (RtoC (nth j (nth i m []) 0%R) * v j)%C) = (z * v i)%C.
(** The solver lists the eigenvalues, as pairs of real and imaginary part, when it succeeds. *)
Definition eigenvalue_solver {E} (ok : list (R * R) -> E) (eigen : list (list R) -> E) : Prop :=
  forall m vals, eigen m = ok vals -> forall a b : R, In (a, b) vals <-> eigenvalue m (a, b).
(** t is the real part of a complex root of k_0 + ... + k_n z^n whose modulus exceeds |t| by at most eps. *)
Definition nearly_real_root (eps : R) (n : nat) (ks : list R) (t : R) : Prop :=
  exists y : R, cpoly n ks (t, y) = RtoC 0 /\ sqrt (t * t + y * y) - Rabs t <= eps.
