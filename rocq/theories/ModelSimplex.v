(** Model of BezierSimplex (/repo/include/nanospline/BezierSimplex.h).

    The template parameters _simplex_dim and _degree are ordinary arguments.  uint8_t, size_t and int
    values (dimensions, degrees, multi-indices, factorials) are unbounded natural numbers: none of them
    is ever negative, the only decrement is guarded.  (In C++ a degree above 12 does not compile:
    the int factorial overflows in a constant expression.)  An access out of range is [Undef]. *)
From Coq Require Import List Arith.
From Verif Require Import Monad Scalar.
Import ListNotations.
Local Open Scope nat_scope.

(** [for (size_t i = 0; i < n; i++) s = body(i, s);] *)
Fixpoint loop {S} (n : nat) (body : nat -> S -> res S) (s : S) : res S :=
  match n with
  | O => Ok s
  | Datatypes.S n' => do s' <- loop n' body s; body n' s'
  end.
(** Checked access [a[i]] *)
Definition getn {A} (l : list A) (i : nat) : res A := match nth_error l i with Some a => Ok a | None => Undef end.

(** BezierSimplex.h:20-29 choose: the loop over x = 1 .. k with the (possibly swapped) r *)
Fixpoint choose_loop (k r : nat) : nat :=
  match k with
  | O => 1
  | S k' => choose_loop k' r * (r + k) / k
  end.
Definition choose (n r : nat) : nat :=
  let r := if r <? n - r then n - r else r in
  choose_loop (n - r) r.

(** BezierSimplex.h:34-43 factorial *)
Fixpoint factorials (n : nat) : list nat :=
  match n with
  | O => [1]
  | S n' => let t := factorials n' in t ++ [last t 0 * n]
  end.

(** BezierSimplex.h:52-79 generate_multi_indices on a matrix of [rows] rows; a block that does not fit, and
    rows that are left unset, are [Undef] *)
Fixpoint generate_multi_indices (simplex_dim degree rows : nat) : res (list (list nat)) :=
  do _ <- assert_ (rows =? choose (simplex_dim + degree) degree);
  match simplex_dim with
  | O => Ok (repeat [degree] rows)
  | S dim' =>
      do indices <- loop (degree + 1) (fun d indices =>
        let m := choose (simplex_dim + d - 1) d in
        do _ <- assert_ (length indices + m <=? rows);
        do layer <- generate_multi_indices dim' d m;
        Ok (indices ++ map (cons (degree - d)) layer)) [];
      do _ <- assert_ (length indices =? rows);
      Ok indices
  end.

Section Simplex.
  Context {T P : Type} {SO : ScalarOps T} {V : PointOps T P}.

  (** BezierSimplex.h:105-131, 393-394 the class; [sx_cols] is m_ordinates.cols() *)
  Record simplex := { sx_dim : nat; sx_degree : nat; sx_cols : nat; sx_ordinates : list P }.
  (** BezierSimplex.h:116-117 m_num_control_points *)
  Definition num_control_points (dim degree : nat) : nat := choose (degree + dim) dim.
  (** BezierSimplex.h:221-222 and others: the multi-indices of the control points *)
  Definition multi_indices (dim degree : nat) : res (list (list nat)) :=
    generate_multi_indices dim degree (num_control_points dim degree).

  (** BezierSimplex.h:149-158 get_control_points *)
  Definition sx_control_points (dim degree : nat) : res (list (list T)) :=
    if degree =? 0 then Ok (repeat (repeat s0 (dim + 1)) (num_control_points dim degree))
    else
      do mi <- multi_indices dim degree;
      mapM (mapM (fun k => ddiv (sofZ (Z.of_nat k)) (sofZ (Z.of_nat degree)))) mi.

  (** std::pow(b, k) with a uint8_t exponent (pow(x, 0) = 1 for every x) *)
  Fixpoint pow_ (x : T) (k : nat) : T := match k with O => s1 | S k' => smul (pow_ x k') x end.
  (** BezierSimplex.h:360-370 evaluate_bernstein *)
  Definition evaluate_bernstein (dim degree : nat) (multi_index : list nat) (b : list T) : res T :=
    do f <- getn (factorials degree) degree;
    loop (dim + 1) (fun j coeff =>
      do a <- getn multi_index j;
      do fa <- getn (factorials degree) a;
      do coeff <- ddiv coeff (sofZ (Z.of_nat fa));
      do x <- getn b j;
      Ok (smul coeff (pow_ x a))) (sofZ (Z.of_nat f)).
  (** BezierSimplex.h:381-390 evaluate_bernstein_derivative *)
  Definition evaluate_bernstein_derivative (dim degree : nat) (multi_index : list nat) (b : list T) (axis : nat) : res T :=
    do a <- getn multi_index axis;
    if a =? 0 then Ok s0
    else evaluate_bernstein dim degree (upd_nat multi_index axis (a - 1)) b.

  (** BezierSimplex.h:265-283 evaluate *)
  Definition sx_evaluate (s : simplex) (b : list T) : res P :=
    let n := num_control_points (sx_dim s) (sx_degree s) in
    if negb (length (sx_ordinates s) =? n) || (sx_cols s =? 0) then Throw runtime_error
    else
      do mi <- multi_indices (sx_dim s) (sx_degree s);
      loop n (fun i result =>
        do multi_index <- getn mi i;
        do coeff <- evaluate_bernstein (sx_dim s) (sx_degree s) multi_index b;
        do o <- getn (sx_ordinates s) i;
        Ok (padd result (pmul coeff o))) p0.
  (** BezierSimplex.h:295-317 evaluate_directional_derivative *)
  Definition sx_evaluate_directional_derivative (s : simplex) (b dir : list T) : res P :=
    let n := num_control_points (sx_dim s) (sx_degree s) in
    if negb (length (sx_ordinates s) =? n) || (sx_cols s =? 0) then Throw runtime_error
    else
      do mi <- multi_indices (sx_dim s) (sx_degree s);
      loop n (fun i result =>
        do multi_index <- getn mi i;
        do coeff <- loop (sx_dim s + 1) (fun j coeff =>
          do e <- evaluate_bernstein_derivative (sx_dim s) (sx_degree s) multi_index b j;
          do x <- getn dir j;
          Ok (sadd coeff (smul e x))) s0;
        do o <- getn (sx_ordinates s) i;
        Ok (padd result (pmul coeff o))) p0.

  (** BezierSimplex.h:210-254 elevate_degree: row [i] of the new ordinates *)
  Definition sx_elevated_row (s : simplex) (mi : list (list nat)) (elevated : list nat) : res P :=
    do sum <- loop (num_control_points (sx_dim s) (sx_degree s)) (fun j acc =>
      do multi_index <- getn mi j;
      loop (sx_dim s + 1) (fun k acc =>
        do a <- getn multi_index k;
        do e <- getn elevated k;
        if list_eq_dec Nat.eq_dec (upd_nat multi_index k (a + 1)) elevated then
          do o <- getn (sx_ordinates s) j;
          Ok (padd acc (pmul (sofZ (Z.of_nat e)) o))
        else Ok acc) acc) p0;
    pdivs sum (sofZ (Z.of_nat (sx_degree s + 1))).
  Definition sx_elevate_degree (s : simplex) : res simplex :=
    do emi <- multi_indices (sx_dim s) (sx_degree s + 1);
    do mi <- multi_indices (sx_dim s) (sx_degree s);
    do rows <- mapM (sx_elevated_row s mi) emi;
    Ok {| sx_dim := sx_dim s; sx_degree := sx_degree s + 1; sx_cols := sx_cols s; sx_ordinates := rows |}.

  (** BezierSimplex.h:332-350 compute_coeff_matrix.  For degree 0 the division gives nan, but only pow(nan, 0) = 1 is
      used of it; the model puts 0 in its place *)
  Definition sx_coeff_point (degree : nat) (multi_index : list nat) : res (list T) :=
    mapM (fun k => if degree =? 0 then Ok s0 else ddiv (sofZ (Z.of_nat k)) (sofZ (Z.of_nat degree))) multi_index.
  Definition sx_coeff_matrix (dim degree : nat) : res (list (list T)) :=
    do mi <- multi_indices dim degree;
    mapM (fun row =>
      do b <- sx_coeff_point degree row;
      mapM (fun multi_index => evaluate_bernstein dim degree multi_index b) mi) mi.
  (** Eigen's product of a matrix (list of rows) and a matrix whose rows are points *)
  Definition matrix_times_points (M : list (list T)) (pts : list P) : list P :=
    map (fun row => fold_left padd (map (fun c => pmul (fst c) (snd c)) (combine row pts)) p0) M.
  (** BezierSimplex.h:193-198 fit; [inverse] stands for Eigen's M.inverse() *)
  Definition sx_fit (inverse : list (list T) -> list (list T)) (s : simplex) (samples : list P) : res simplex :=
    do M <- sx_coeff_matrix (sx_dim s) (sx_degree s);
    Ok {| sx_dim := sx_dim s; sx_degree := sx_degree s; sx_cols := sx_cols s; sx_ordinates := matrix_times_points (inverse M) samples |}.
End Simplex.
Arguments simplex : clear implicits.
