(** Property theorems: inflections and singularities of B-splines (C108).
    Statements only; the proofs are in SplineAnalysis.v and SplineCases.v. *)
From Coq Require Import Reals Lra Lia ZArith QArith List Sorted.
From Verif Require Import Monad Scalar Spec SpecAnalysis SpecSplineAnalysis SpecRoots ModelCurve ModelBSpline ModelAnalysis TurningThms3 SplineAnalysis SplineCases.
Import ListNotations.
Local Open Scope R_scope.

Notation qt x y := ((x%Q, (y%Q, tt)) : vec Q 2).

(** C108: between neighbouring knots the curve is a polynomial piece that can be continued and differentiated; its derivatives are
    determined up to both end points. *)
Theorem C108_pieces : forall (c : bspline R (vec R 2)) (x y : R), plain_bspline c -> (2 <= bspline_degree (bs_pts c) (bs_knots c))%nat -> neighbours c x y ->
  (exists g g1 g2, piece c x y g g1 g2) /\ forall g g1 g2 g' g1' g2', piece c x y g g1 g2 -> piece c x y g' g1' g2' -> forall t, x <= t <= y -> g1 t = g1' t /\ g2 t = g2' t.
Proof. exact pieces_exist. Qed.
Print Assumptions C108_pieces.
(** Cubic splines whose inflection polynomials have a clear number of roots: exactly the inflections of all pieces are reported. *)
Theorem C108_cubic : forall eigen (high : bool) (c : bspline R (vec R 2)) (a b : R), plain_bspline c -> bspline_degree (bs_pts c) (bs_knots c) = 3%nat ->
  (forall x y, neighbours c x y -> exists k0 k1 k2, inflection_polynomial c x y [k0; k1; k2] /\ clear_quadratic (1 / 10 ^ 8) k2 k1 k0) ->
  exists l, bs_compute_inflections eigen high c a b = Ok l /\ StronglySorted Rlt l /\
    forall t, In t l <-> a <= t <= b /\ exists x y, neighbours c x y /\ x <= t <= y /\ inflects c x y t.
Proof. exact spline_cubic. Qed.
Print Assumptions C108_cubic.
(** Higher degrees: a result lists every inflection, and otherwise only roots next to the real axis. *)
Theorem C108_inflections : forall eigen (high : bool) (c : bspline R (vec R 2)) (ks : R -> R -> list R) (a b : R) l, plain_bspline c ->
  let p := bspline_degree (bs_pts c) (bs_knots c) in (p <= 4)%nat \/ high = true -> eigenvalue_solver Ok eigen -> (forall m e, eigen m <> Throw e) -> (4 <= p <= 10)%nat ->
  (forall x y, neighbours c x y -> length (ks x y) = (2 * p - 3)%nat /\ inflection_polynomial c x y (ks x y) /\ 1 / 10 ^ 8 <= Rabs (nth (2 * p - 4) (ks x y) 0)) ->
  bs_compute_inflections eigen high c a b = Ok l ->
  StronglySorted Rlt l /\ (forall x y t, neighbours c x y -> x <= t <= y -> a <= t <= b -> inflects c x y t -> In t l) /\
  forall t, In t l <-> a <= t <= b /\ exists x y, neighbours c x y /\ x <= t <= y /\ nearly_real_root (1 / 10 ^ 8) (2 * p - 4) (ks x y) ((t - x) / (y - x)).
Proof. exact spline_high. Qed.
Print Assumptions C108_inflections.
Theorem C108_singularities : forall eigen (high : bool) (c : bspline R (vec R 2)) (ks : R -> R -> list R) (a b : R) l, plain_bspline c ->
  let p := bspline_degree (bs_pts c) (bs_knots c) in (p <= 4)%nat \/ high = true -> eigenvalue_solver Ok eigen -> (3 <= p <= 6)%nat ->
  (forall x y, neighbours c x y -> length (ks x y) = (2 * p - 1)%nat /\ speed_polynomial c x y (ks x y) /\ 1 / 10 ^ 8 <= Rabs (nth (2 * p - 2) (ks x y) 0)) ->
  bs_compute_singularities eigen high c a b = Ok l ->
  StronglySorted Rlt l /\ (forall x y t, neighbours c x y -> x <= t <= y -> a <= t <= b -> stops c x y t -> In t l) /\
  forall t, In t l <-> a <= t <= b /\ exists x y, neighbours c x y /\ x <= t <= y /\ nearly_real_root (1 / 10 ^ 8) (2 * p - 2) (ks x y) ((t - x) / (y - x)).
Proof. exact spline_speed. Qed.
Print Assumptions C108_singularities.
(** An interval that starts or ends at an interior knot: the piece it touches in one point is analysed on an empty interval, where the
    root finder asserts t0 < t1.  There is never a result. *)
Theorem C108_knot_actual : forall eigen (high : bool) (c : bspline R (vec R 2)) (a b u : R) l, plain_bspline c -> In u (bs_knots c) ->
  lower_of (bs_pts c) (bs_knots c) < u < upper_of (bs_pts c) (bs_knots c) -> (u = a /\ a <= b) \/ (u = b /\ a <= b) ->
  let p := bspline_degree (bs_pts c) (bs_knots c) in (p <= 4)%nat \/ high = true ->
  ((4 <= p <= 10)%nat -> bs_compute_inflections eigen high c a b <> Ok l) /\ ((3 <= p <= 6)%nat -> bs_compute_singularities eigen high c a b <> Ok l).
Proof. exact spline_knot. Qed.
Print Assumptions C108_knot_actual.
Theorem C108_knot_refuted : exists (c : bspline R (vec R 2)) (a b : R), plain_bspline c /\ bspline_degree (bs_pts c) (bs_knots c) = 3%nat /\
  lower_of (bs_pts c) (bs_knots c) <= a < b /\ b <= upper_of (bs_pts c) (bs_knots c) /\ stops c a b b /\ neighbours c a b /\
  forall eigen high l, bs_compute_singularities eigen high c a b <> Ok l.
Proof. exact pause_refutes. Qed.
Print Assumptions C108_knot_refuted.

(** All hypotheses at once: a cubic graph with inflections at 1/2 and 5/4, a cubic spline that stops at its knots, two joined quartics. *)
Example C108_hyp_cubic : plain_bspline wave /\ bspline_degree (bs_pts wave) (bs_knots wave) = 3%nat /\
  (forall x y, neighbours wave x y -> exists k0 k1 k2, inflection_polynomial wave x y [k0; k1; k2] /\ clear_quadratic (1 / 10 ^ 8) k2 k1 k0) /\
  neighbours wave 0 1 /\ neighbours wave 1 2 /\ inflects wave 0 1 (1 / 2) /\ inflects wave 1 2 (5 / 4).
Proof. exact wave_case. Qed.
Example C108_hyp_inflections : plain_bspline stairs /\ bspline_degree (bs_pts stairs) (bs_knots stairs) = 4%nat /\
  (forall x y, neighbours stairs x y -> inflection_polynomial stairs x y [0; 0; -3; 0; 12]) /\ 1 / 10 ^ 8 <= Rabs (nth 4 [0; 0; -3; 0; 12] 0) /\
  (exists eigen l, eigenvalue_solver Ok eigen /\ (forall m e, eigen m <> Throw e) /\ bs_compute_inflections eigen false stairs 0 2 = Ok l) /\
  neighbours stairs 1 2 /\ inflects stairs 1 2 (3 / 2).
Proof. exact stairs_case. Qed.
Example C108_hyp_singularities : plain_bspline pause /\ bspline_degree (bs_pts pause) (bs_knots pause) = 3%nat /\
  (forall x y, neighbours pause x y -> speed_polynomial pause x y [0; 0; 25; -50; 25]) /\ 1 / 10 ^ 8 <= Rabs (nth 4 [0; 0; 25; -50; 25] 0) /\
  (exists eigen l, eigenvalue_solver Ok eigen /\ (forall m e, eigen m <> Throw e) /\ bs_compute_singularities eigen false pause 0 2 = Ok l) /\
  neighbours pause 0 1 /\ stops pause 0 1 1.
Proof. exact pause_case. Qed.
(** Executable: the cubic graph over the rationals, whole domain and part of it; singularities starting at the knot 1 and before it. *)
Definition run_wave : bspline Q (vec Q 2) :=
  mk_bspline [qt 0 0; qt (1 # 3) 0; qt 1 (- 1 # 3); qt (5 # 3) 0; qt 2 (- 1 # 3)] [0; 0; 0; 0; 1; 2; 2; 2; 2]%Q.
Example C108_run : (do l <- bs_compute_inflections (fun _ => Undef) false run_wave 0%Q 2%Q; Ok (map Qred l)) = Ok [1 # 2; 5 # 4]%Q.
Proof. vm_compute. reflexivity. Qed.
Example C108_run_part : (do l <- bs_compute_inflections (fun _ => Undef) false run_wave 1%Q 2%Q; Ok (map Qred l)) = Ok [5 # 4]%Q.
Proof. vm_compute. reflexivity. Qed.
Example C108_run_knot : bs_compute_singularities (fun _ => Ok []) false run_wave 1%Q 2%Q = Undef /\
  bs_compute_singularities (fun _ => Ok []) false run_wave (1 # 2)%Q 2%Q = Ok [].
Proof. vm_compute. split; reflexivity. Qed.
