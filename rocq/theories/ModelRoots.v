(** PolynomialRootFinder.h: closed forms for degrees 0, 1 and 2, eigenvalues of the companion matrix for higher degrees.
    Eigen's eigenvalue solver is a parameter: [eigen m] lists the eigenvalues of the matrix [m] (a list of rows) as pairs
    (real part, imaginary part). *)
From Verif Require Import Monad Scalar.
Local Open Scope Z_scope.

Section Roots.
  Context {T : Type} {SO : ScalarOps T}.
  Local Open Scope scal_scope.

  (** "if (root >= t0 && root <= t1) roots.push_back(root)" (lines 58, 94, 100, 103, 131) *)
  Definition push_in (t0 t1 root : T) (roots : list T) : list T :=
    if (t0 <=? root) && (root <=? t1) then roots ++ [root] else roots.

  (** PolynomialRootFinder.h:135-150 degree 0 *)
  Definition find_roots_0 (coeffs : list T) (roots : list T) (t0 t1 eps : T) : res (list T) :=
    do c <- get coeffs 0%Z;
    if sabs c <? eps then Throw infinite_root_error else Ok roots.

  (** PolynomialRootFinder.h:108-133 degree 1 *)
  Definition find_roots_1 (coeffs : list T) (roots : list T) (t0 t1 eps : T) : res (list T) :=
    do a <- get coeffs 1%Z;
    if sabs a <? eps then find_roots_0 coeffs roots t0 t1 eps
    else
      do b <- get coeffs 0%Z;
      do root <- ddiv (- b) a;
      Ok (push_in t0 t1 root roots).

  (** PolynomialRootFinder.h:63-106 degree 2 *)
  Definition find_roots_2 (coeffs : list T) (roots : list T) (t0 t1 eps : T) : res (list T) :=
    do a <- get coeffs 2%Z;
    if sabs a <? eps then find_roots_1 coeffs roots t0 t1 eps
    else
      do b <- get coeffs 1%Z;
      do c <- get coeffs 0%Z;
      let discr := b * b - sofZ 4 * a * c in
      if discr <? s0 then Ok roots
      else if sabs discr <? eps then
        do root <- ddiv (- b) (sofZ 2 * a);
        Ok (push_in t0 t1 root roots)
      else
        let sqrt_discr := ssqrt discr in
        do r1 <- ddiv (- b - sqrt_discr) (sofZ 2 * a);
        let roots := push_in t0 t1 r1 roots in
        do r2 <- ddiv (- b + sqrt_discr) (sofZ 2 * a);
        Ok (push_in t0 t1 r2 roots).

  (** PolynomialRootFinder.h:40-48 the companion matrix: ones below the diagonal, -c_i / c_n in the last column *)
  Definition companion (n : Z) (coeffs : list T) : res (list (list T)) :=
    tabulate n (fun i => tabulate n (fun j =>
      if (j =? n - 1)%Z then do ci <- get coeffs i; do cn <- get coeffs n; ddiv (- ci) cn
      else if (i =? j + 1)%Z then Ok s1 else Ok s0)).
  (** modulus of a complex number *)
  Definition complex_abs (z : T * T) : T := ssqrt (fst z * fst z + snd z * snd z).
  (** PolynomialRootFinder.h:40-60 degree n > 2 with a leading coefficient above eps *)
  Definition find_roots_companion (eigen : list (list T) -> res (list (T * T)))
      (n : Z) (coeffs : list T) (roots : list T) (t0 t1 eps : T) : res (list T) :=
    do m <- companion n coeffs;
    do vals <- eigen m;
    Ok (fold_left (fun acc lam =>
          if eps <? sabs (sabs (complex_abs lam) - sabs (fst lam)) then acc else push_in t0 t1 (fst lam) acc) vals roots).
  (** PolynomialRootFinder.h:19-38 the generic class; lines 63-150 the specialisations *)
  Fixpoint find_roots (eigen : list (list T) -> res (list (T * T))) (n : nat)
      (coeffs : list T) (roots : list T) (t0 t1 eps : T) : res (list T) :=
    match n with
    | 0%nat => find_roots_0 coeffs roots t0 t1 eps
    | 1%nat => find_roots_1 coeffs roots t0 t1 eps
    | 2%nat => find_roots_2 coeffs roots t0 t1 eps
    | S n' =>
        do a <- get coeffs (Z.of_nat n);
        do _ <- assert_ (t0 <? t1);
        if sabs a <? eps then find_roots eigen n' coeffs roots t0 t1 eps
        else find_roots_companion eigen (Z.of_nat n) coeffs roots t0 t1 eps
    end.
End Roots.
