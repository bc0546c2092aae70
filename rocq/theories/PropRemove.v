(** Property theorems: knot removal with a tolerance of any sign (C18), with more copies than there are (C91),
    and of NURBS curves (C92).  Statements only; the proofs are in RemoveTol.v, NurbsRemove.v and RemoveRefute.v.
    The example curves [ex_c] and [ex_nb] are those of PropBSpline.v and PropRational.v. *)
From Coq Require Import Reals Lra Lia ZArith QArith List Permutation.
From Verif Require Import Monad Scalar Spec SpecGeom SpecRemove ModelCurve ModelBezier ModelBSpline ModelRational ModelRemove RemoveTol NurbsRemove
  RemoveRefute BSplineRefute ExampleFacts PropBSpline PropBSpline3 PropRational.
Import ListNotations.
Local Open Scope R_scope.

(** C18, undoing an insertion, for every tolerance: a negative one means the default of the code. *)
Theorem C18_undo_any_tolerance : forall d (c c1 : bspline R (vec R d)) (t : R) (m N : nat) (tol : R), (1 <= d)%nat ->
  valid_bspline (bs_pts c) (bs_knots c) ->
  lower_of (bs_pts c) (bs_knots c) < t < upper_of (bs_pts c) (bs_knots c) ->
  (1 <= m)%nat -> (m + count_occ Req_EM_T (bs_knots c) t <= bspline_degree (bs_pts c) (bs_knots c))%nat ->
  (m <= N <= m + count_occ Req_EM_T (bs_knots c) t)%nat ->
  bs_insert_knot c t (Z.of_nat m) = Ok c1 ->
  exists c' (count : nat), bs_remove_knot_any c1 t (Z.of_nat N) tol = Ok (c', Z.of_nat count) /\ (m <= count <= N)%nat /\
    (N = m -> c' = c).
Proof. exact remove_any_undo. Qed.
Print Assumptions C18_undo_any_tolerance.
(** Its hypotheses are those of [C18_undo_hyp].  Over the rationals, with the default tolerance: *)
Example C18_undo_any_run : (do c1 <- bs_insert_knot exq_c 1%Q 1; do '(c2, r) <- bs_remove_knot_any c1 1%Q 1 (-1)%Q;
    Ok (length (bs_knots c1), map Qred (bs_knots c2), map (fun v => (Qred (fst v), Qred (fst (snd v)))) (bs_pts c2), r))
  = Ok (10%nat, map Qred (bs_knots exq_c), map (fun v => (Qred (fst v), Qred (fst (snd v)))) (bs_pts exq_c), 1%Z).
Proof. vm_compute. reflexivity. Qed.

(** C18, removal in general with the default tolerance: the same as [C18_bound], where the tolerance is
    a millionth of the longest side [e] of the bounding box of the control points. *)
Theorem C18_default_tolerance : forall d (c : bspline R (vec R d)) (t : R) (N : nat) (tol : R), (1 <= d)%nat -> tol < 0 ->
  valid_bspline (bs_pts c) (bs_knots c) -> knots_apart (/ IZR (10 ^ 16)) (bs_knots c) ->
  regular_start (bs_pts c) (bs_knots c) ->
  lower_of (bs_pts c) (bs_knots c) < t < upper_of (bs_pts c) (bs_knots c) ->
  (1 <= N <= count_occ Req_EM_T (bs_knots c) t)%nat ->
  (count_occ Req_EM_T (bs_knots c) t <= bspline_degree (bs_pts c) (bs_knots c))%nat ->
  exists c' (count : nat) (e : R), longest_side (bs_pts c) e /\
    bs_remove_knot_any c t (Z.of_nat N) tol = Ok (c', Z.of_nat count) /\ (count <= N)%nat /\
    bs_periodic c' = bs_periodic c /\
    valid_bspline (bs_pts c') (bs_knots c') /\
    bspline_degree (bs_pts c') (bs_knots c') = bspline_degree (bs_pts c) (bs_knots c) /\
    Permutation (bs_knots c) (repeat t count ++ bs_knots c') /\
    lower_of (bs_pts c') (bs_knots c') = lower_of (bs_pts c) (bs_knots c) /\
    upper_of (bs_pts c') (bs_knots c') = upper_of (bs_pts c) (bs_knots c) /\
    (forall x, (bs_periodic c = true \/ lower_of (bs_pts c) (bs_knots c) <= x <= upper_of (bs_pts c) (bs_knots c)) ->
       exists v v', bs_evaluate c x = Ok v /\ bs_evaluate c' x = Ok v' /\ edist v v' <= INR count * (e / IZR (10 ^ 6))).
Proof. exact remove_default. Qed.
Print Assumptions C18_default_tolerance.
(** Its hypotheses on [ex_c] at 3 are those of [C18_bound_hyp].  The tolerance there is 7 millionths, as the control
    points lie in a box of width 7 and height 4; nothing can be removed. *)
Example C18_default_run : default_tol (bs_pts exq_c) = Ok (7 # 1000000)%Q /\
  (do '(c', r) <- bs_remove_knot_any exq_c 3%Q 2 (-1)%Q; Ok (map Qred (bs_knots c'), r)) = Ok ([0; 0; 0; 1; 3; 3; 4; 5; 6]%Q, 0%Z).
Proof. vm_compute. split; reflexivity. Qed.

(** C18, a tolerance that is not negative is taken as it is, so the theorems of PropBSpline3.v apply. *)
Theorem C18_explicit_tolerance : forall d (c : bspline R (vec R d)) (t : R) (n : Z) (tol : R), 0 <= tol ->
  bs_remove_knot_any c t n tol = bs_remove_knot c t n tol.
Proof. exact remove_any_nonneg. Qed.
Print Assumptions C18_explicit_tolerance.
Example C18_explicit_run : (do '(c', r) <- bs_remove_knot_any exq_c 3%Q 2 4%Q; Ok (map Qred (bs_knots c'), r)) = Ok ([0; 0; 0; 1; 4; 5; 6]%Q, 2%Z).
Proof. vm_compute. reflexivity. Qed.

(** C18 at the ends of the domain, for every tolerance: nothing is removed. *)
Theorem C18_ends_any_tolerance : forall d (c : bspline R (vec R d)) (t : R) (N : nat) (tol : R), (1 <= d)%nat ->
  valid_bspline (bs_pts c) (bs_knots c) -> (1 <= N)%nat ->
  (t = lower_of (bs_pts c) (bs_knots c) \/ t = upper_of (bs_pts c) (bs_knots c)) ->
  bs_remove_knot_any c t (Z.of_nat N) tol = Ok (c, 0%Z).
Proof. exact remove_any_ends. Qed.
Print Assumptions C18_ends_any_tolerance.
Example C18_ends_any_run : (do '(c', r) <- bs_remove_knot_any exq_c 4%Q 1 (-1)%Q; Ok (map Qred (bs_knots c'), r)) = Ok ([0; 0; 0; 1; 3; 3; 4; 5; 6]%Q, 0%Z).
Proof. vm_compute. reflexivity. Qed.

(** C91: false.  Asked for two copies of the simple knot 2, at tolerance 0, remove_knot removes the knots 1 and 2,
    reports two copies, and the curve moves by 1. *)
Theorem C91_other_knot_removed_refuted : exists (pts : list (vec R 1)) (knots : list R) c',
  valid_bspline pts knots /\ knots_apart (/ IZR (10 ^ 16)) knots /\ regular_start pts knots /\
  lower_of pts knots < 2 < upper_of pts knots /\ count_occ Req_EM_T knots 2 = 1%nat /\ (1 <= bspline_degree pts knots)%nat /\
  bs_remove_knot (mk_bspline pts knots) 2 2 0 = Ok (c', 2%Z) /\ ~ In 1 (bs_knots c') /\
  bs_evaluate (mk_bspline pts knots) 3 = Ok (r1 1) /\ bs_evaluate c' 3 = Ok (r1 0).
Proof. exact excess_changes. Qed.
Print Assumptions C91_other_knot_removed_refuted.

(** C91: false.  On a straight line with one inner knot, the second copy is looked for before the first row of
    the control points: undefined behaviour. *)
Theorem C91_out_of_range_refuted : exists (pts : list (vec R 1)) (knots : list R),
  valid_bspline pts knots /\ knots_apart (/ IZR (10 ^ 16)) knots /\ regular_start pts knots /\
  lower_of pts knots < 1 < upper_of pts knots /\ count_occ Req_EM_T knots 1 = 1%nat /\ (1 <= bspline_degree pts knots)%nat /\
  bs_remove_knot (mk_bspline pts knots) 1 2 0 = Undef.
Proof. exact excess_crash. Qed.
Print Assumptions C91_out_of_range_refuted.

(** C91, what holds: once removal has stopped early, asking for more copies makes no difference (so more copies than
    there are do no harm unless every one there is has been removed) ... *)
Theorem C91_early_stop_partial : forall d (c c' : bspline R (vec R d)) (t : R) (N N' r : Z) (tol : R), (N <= N')%Z -> (r < N)%Z ->
  bs_remove_knot c t N tol = Ok (c', r) -> bs_remove_knot c t N' tol = Ok (c', r).
Proof. exact remove_more. Qed.
Print Assumptions C91_early_stop_partial.
Example C91_early_stop_run : (do '(c', r) <- bs_remove_knot exq_c 3%Q 2 3%Q; Ok r) = Ok 0%Z /\ (do '(c', r) <- bs_remove_knot exq_c 3%Q 7 3%Q; Ok r) = Ok 0%Z.
Proof. vm_compute. split; reflexivity. Qed.

(** ... and at a parameter that is no knot nothing is removed. *)
Theorem C91_no_knot : forall d (c : bspline R (vec R d)) (t : R) (N : nat) (tol : R),
  valid_bspline (bs_pts c) (bs_knots c) -> (1 <= N)%nat ->
  lower_of (bs_pts c) (bs_knots c) <= t <= upper_of (bs_pts c) (bs_knots c) -> ~ In t (bs_knots c) ->
  bs_remove_knot c t (Z.of_nat N) tol = Ok (c, 0%Z).
Proof. exact remove_absent. Qed.
Print Assumptions C91_no_knot.
Example C91_no_knot_hyp : lower_of (bs_pts ex_c) (bs_knots ex_c) <= 2 <= upper_of (bs_pts ex_c) (bs_knots ex_c) /\ ~ In 2 (bs_knots ex_c).
Proof.
  destruct ex_domain as [-> ->]. split; [lra|]. unfold ex_c, ex_zs. cbn [bs_knots mk_bspline map In].
  intros H. repeat (destruct H as [H|H]; [lra|]). exact H.
Qed.

(** C92, undoing an insertion, for every tolerance: positive weights, [m] copies inserted inside the domain and
    removed again give back the object, weights and control points included. *)
Theorem C92_undo : forall d (c c1 : nurbs R d) (t : R) (m : nat) (tol : R),
  nb_initialize c = Ok c -> Forall (fun w => 0 < w) (nb_weights c) ->
  valid_bspline (nb_pts c) (nb_knots c) ->
  lower_of (nb_pts c) (nb_knots c) < t < upper_of (nb_pts c) (nb_knots c) ->
  (1 <= m)%nat -> (m + count_occ Req_EM_T (nb_knots c) t <= bspline_degree (nb_pts c) (nb_knots c))%nat ->
  nb_insert_knot c t (Z.of_nat m) = Ok c1 -> nb_remove_knot_any c1 t (Z.of_nat m) tol = Ok (c, Z.of_nat m).
Proof. exact nurbs_undo. Qed.
Print Assumptions C92_undo.
(** The example curve, whose weights are not all equal; insertion succeeds by [C55_insert_knot]. *)
Example C92_undo_hyp : lower_of (nb_pts ex_nb) (nb_knots ex_nb) < 2 < upper_of (nb_pts ex_nb) (nb_knots ex_nb) /\
  (2 + count_occ Req_EM_T (nb_knots ex_nb) 2%R <= bspline_degree (nb_pts ex_nb) (nb_knots ex_nb))%nat.
Proof.
  split; [cbn; lra|]. change (nb_knots ex_nb) with (map IZR ex_nb_zs). rewrite (count_IZR ex_nb_zs 2%Z). cbn. lia.
Qed.
Example C92_undo_run : (do c <- exq_nb; do c1 <- nb_insert_knot c 2%Q 2; do '(c2, r) <- nb_remove_knot_any c1 2%Q 2 (-1)%Q;
    Ok (length (nb_weights c1), map Qred (nb_knots c2), map Qred (nb_weights c2), r))
  = (do c <- exq_nb; Ok (8%nat, map Qred (nb_knots c), map Qred (nb_weights c), 2%Z)).
Proof. vm_compute. reflexivity. Qed.

(** C92, removal in general, when it succeeds: the tolerance in force [eff] is [tol], or, when that is negative, a
    millionth of the longest side of the box of the homogeneous points.  The bound [count * eff] on the homogeneous
    curve is carried through the division by weights at least [wmin]. *)
Theorem C92_bound_partial : forall d (c c' : nurbs R d) (t : R) (N : nat) (tol eff : R) (r : Z), nb_initialize c = Ok c ->
  valid_bspline (nb_pts c) (nb_knots c) -> knots_apart (/ IZR (10 ^ 16)) (nb_knots c) ->
  nth (bspline_degree (nb_pts c) (nb_knots c)) (nb_knots c) 0
    < nth (bspline_degree (nb_pts c) (nb_knots c) + 1) (nb_knots c) 0 ->
  lower_of (nb_pts c) (nb_knots c) < t < upper_of (nb_pts c) (nb_knots c) ->
  (1 <= N <= count_occ Req_EM_T (nb_knots c) t)%nat ->
  (count_occ Req_EM_T (nb_knots c) t <= bspline_degree (nb_pts c) (nb_knots c))%nat ->
  (0 <= tol /\ eff = tol \/ tol < 0 /\ exists s, longest_side (bs_pts (nb_hom c)) s /\ eff = s / IZR (10 ^ 6)) ->
  nb_remove_knot_any c t (Z.of_nat N) tol = Ok (c', r) ->
  exists count, r = Z.of_nat count /\ (count <= N)%nat /\
  nb_initialize c' = Ok c' /\ nb_periodic c' = nb_periodic c /\ valid_bspline (nb_pts c') (nb_knots c') /\
  bspline_degree (nb_pts c') (nb_knots c') = bspline_degree (nb_pts c) (nb_knots c) /\
  Permutation (nb_knots c) (repeat t count ++ nb_knots c') /\
  lower_of (nb_pts c') (nb_knots c') = lower_of (nb_pts c) (nb_knots c) /\
  upper_of (nb_pts c') (nb_knots c') = upper_of (nb_pts c) (nb_knots c) /\
  forall wmin x, let e := INR count * eff in
    e < wmin -> Forall (fun w => wmin <= w) (nb_weights c) ->
    (nb_periodic c = true \/ lower_of (nb_pts c) (nb_knots c) <= x <= upper_of (nb_pts c) (nb_knots c)) ->
    exists a a', nb_evaluate c x = Ok a /\ nb_evaluate c' x = Ok a' /\ edist a a' <= e * (1 + edist a p0) / (wmin - e).
Proof. exact nurbs_remove. Qed.
Print Assumptions C92_bound_partial.
Example C92_bound_hyp : nth (bspline_degree (nb_pts ex_nb) (nb_knots ex_nb)) (nb_knots ex_nb) 0
    < nth (bspline_degree (nb_pts ex_nb) (nb_knots ex_nb) + 1) (nb_knots ex_nb) 0 /\
  lower_of (nb_pts ex_nb) (nb_knots ex_nb) < 3 < upper_of (nb_pts ex_nb) (nb_knots ex_nb) /\
  (1 <= 2 <= count_occ Req_EM_T (nb_knots ex_nb) 3%R)%nat /\
  (count_occ Req_EM_T (nb_knots ex_nb) 3%R <= bspline_degree (nb_pts ex_nb) (nb_knots ex_nb))%nat.
Proof.
  split; [cbn; lra|]. split; [cbn; lra|]. change (nb_knots ex_nb) with (map IZR ex_nb_zs). rewrite (count_IZR ex_nb_zs 3%Z). cbn. lia.
Qed.
(** Over the rationals: at tolerance 1000 both copies of 3 go. *)
Example C92_bound_run : (do c <- exq_nb; do '(c', r) <- nb_remove_knot_any c 3%Q 2 1000%Q; Ok (map Qred (nb_knots c'), r))
  = Ok ([0; 0; 0; 1; 4; 5; 6]%Q, 2%Z).
Proof. vm_compute. reflexivity. Qed.

(** C92 is false when removal makes a weight vanish: positive weights 1, 1/2, 1/2, 1 become 1, 0, 1, and
    set_homogeneous divides by the 0. *)
Theorem C92_zero_weight_refuted : exists (pts : list (vec R 1)) (knots ws : list R) c,
  valid_bspline pts knots /\ knots_apart (/ IZR (10 ^ 16)) knots /\
  nth (bspline_degree pts knots) knots 0 < nth (bspline_degree pts knots + 1) knots 0 /\
  lower_of pts knots < 1 < upper_of pts knots /\ count_occ Req_EM_T knots 1 = 1%nat /\ (1 <= bspline_degree pts knots)%nat /\
  Forall (fun w => 0 < w) ws /\ mk_nurbs pts knots ws = Ok c /\ nb_initialize c = Ok c /\ nb_remove_knot_any c 1 1 0 = NonFinite.
Proof. exact nurbs_remove_fails. Qed.
Print Assumptions C92_zero_weight_refuted.
