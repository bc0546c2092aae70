(** Property theorems: B-spline curves, knot removal (C18).  Statements only; the proofs are in
    BSplineRemove*.v.  The example curve [ex_c] is that of PropBSpline.v. *)
From Coq Require Import Reals Lra Lia ZArith QArith List Permutation.
From Verif Require Import Monad Scalar Spec SpecGeom ModelCurve ModelBezier ModelBSpline BSplineRemove5 BSplineRemove6
  ExampleFacts PropBSpline.
Import ListNotations.
Local Open Scope R_scope.

(** C18, removal after insertion: [m] copies of [t] are inserted inside the domain, then up to [N] copies
    are to be removed, [m <= N <=] multiplicity.  At least the [m] new ones are; with [N = m] the result
    is the curve before the insertion, control points and all. *)
Theorem C18_undo : forall d (c c1 : bspline R (vec R d)) (t : R) (m N : nat) (tol : R),
  valid_bspline (bs_pts c) (bs_knots c) ->
  lower_of (bs_pts c) (bs_knots c) < t < upper_of (bs_pts c) (bs_knots c) ->
  (1 <= m)%nat -> (m + count_occ Req_EM_T (bs_knots c) t <= bspline_degree (bs_pts c) (bs_knots c))%nat ->
  (m <= N <= m + count_occ Req_EM_T (bs_knots c) t)%nat -> 0 <= tol ->
  bs_insert_knot c t (Z.of_nat m) = Ok c1 ->
  exists c' (count : nat), bs_remove_knot c1 t (Z.of_nat N) tol = Ok (c', Z.of_nat count) /\ (m <= count <= N)%nat /\
    (N = m -> c' = c).
Proof. exact bspline_undo. Qed.
Print Assumptions C18_undo.

Example C18_undo_hyp : valid_bspline (bs_pts ex_c) (bs_knots ex_c) /\
  lower_of (bs_pts ex_c) (bs_knots ex_c) < 1 < upper_of (bs_pts ex_c) (bs_knots ex_c) /\
  (1 + count_occ Req_EM_T (bs_knots ex_c) 1%R <= bspline_degree (bs_pts ex_c) (bs_knots ex_c))%nat.
Proof.
  split; [exact ex_valid|]. destruct ex_domain as [-> ->]. split; [lra|]. rewrite ex_degree.
  unfold ex_c, ex_zs. cbn [bs_knots mk_bspline map count_occ].
  repeat (destruct (Req_EM_T _ _); [try (exfalso; lra)|]; try (exfalso; lra)); simpl; lia.
Qed.
(** Over the rationals: a second copy of 1 inserted and removed; the curve comes back. *)
Example C18_undo_run : (do c1 <- bs_insert_knot exq_c 1%Q 1; do '(c2, r) <- bs_remove_knot c1 1%Q 1 0%Q;
    Ok (length (bs_knots c1), map Qred (bs_knots c2), map (fun v => (Qred (fst v), Qred (fst (snd v)))) (bs_pts c2), r))
  = Ok (10%nat, map Qred (bs_knots exq_c), map (fun v => (Qred (fst v), Qred (fst (snd v)))) (bs_pts exq_c), 1%Z).
Proof. vm_compute. reflexivity. Qed.

(** C18, removal in general: up to [N] copies of an interior knot, [N] at most its multiplicity (at most p).
    Whatever number [count] is removed, the result is a valid curve over the same domain whose knots are
    those of [c] less [count] copies of [t]; putting the copies back gives control points within
    [count * tol] of those of [c]; and the curve has moved nowhere by more than [count * tol]. *)
Theorem C18_bound : forall d (c : bspline R (vec R d)) (t : R) (N : nat) (tol : R),
  valid_bspline (bs_pts c) (bs_knots c) -> knots_apart (/ IZR (10 ^ 16)) (bs_knots c) ->
  regular_start (bs_pts c) (bs_knots c) ->
  lower_of (bs_pts c) (bs_knots c) < t < upper_of (bs_pts c) (bs_knots c) ->
  (1 <= N <= count_occ Req_EM_T (bs_knots c) t)%nat ->
  (count_occ Req_EM_T (bs_knots c) t <= bspline_degree (bs_pts c) (bs_knots c))%nat -> 0 <= tol ->
  exists c' (count : nat), bs_remove_knot c t (Z.of_nat N) tol = Ok (c', Z.of_nat count) /\ (count <= N)%nat /\
    bs_periodic c' = bs_periodic c /\
    valid_bspline (bs_pts c') (bs_knots c') /\
    bspline_degree (bs_pts c') (bs_knots c') = bspline_degree (bs_pts c) (bs_knots c) /\
    Permutation (bs_knots c) (repeat t count ++ bs_knots c') /\
    lower_of (bs_pts c') (bs_knots c') = lower_of (bs_pts c) (bs_knots c) /\
    upper_of (bs_pts c') (bs_knots c') = upper_of (bs_pts c) (bs_knots c) /\
    knots_apart (/ IZR (10 ^ 16)) (bs_knots c') /\ regular_start (bs_pts c') (bs_knots c') /\
    ((1 <= count)%nat -> exists c'', bs_insert_knot c' t (Z.of_nat count) = Ok c'' /\ bs_knots c'' = bs_knots c /\
       bs_periodic c'' = bs_periodic c /\ Forall2 (fun a b => edist a b <= INR count * tol) (bs_pts c) (bs_pts c'')) /\
    (forall x, (bs_periodic c = true \/ lower_of (bs_pts c) (bs_knots c) <= x <= upper_of (bs_pts c) (bs_knots c)) ->
       exists v v', bs_evaluate c x = Ok v /\ bs_evaluate c' x = Ok v' /\ edist v v' <= INR count * tol) /\
    (forall x, lower_of (bs_pts c) (bs_knots c) <= x <= upper_of (bs_pts c) (bs_knots c) ->
       exists v v', bs_evaluate (mk_bspline (bs_pts c) (bs_knots c)) x = Ok v /\ bs_evaluate (mk_bspline (bs_pts c') (bs_knots c')) x = Ok v' /\ edist v v' <= INR count * tol).
Proof. exact bspline_remove. Qed.
Print Assumptions C18_bound.

Example C18_bound_hyp : valid_bspline (bs_pts ex_c) (bs_knots ex_c) /\ knots_apart (/ IZR (10 ^ 16)) (bs_knots ex_c) /\
  regular_start (bs_pts ex_c) (bs_knots ex_c) /\
  lower_of (bs_pts ex_c) (bs_knots ex_c) < 3 < upper_of (bs_pts ex_c) (bs_knots ex_c) /\
  (1 <= 2 <= count_occ Req_EM_T (bs_knots ex_c) 3%R)%nat /\
  (count_occ Req_EM_T (bs_knots ex_c) 3%R <= bspline_degree (bs_pts ex_c) (bs_knots ex_c))%nat.
Proof.
  split; [exact ex_valid|]. split; [exact ex_apart|]. split; [exact ex_regular|]. destruct ex_domain as [-> ->]. split; [lra|].
  rewrite ex_degree. unfold ex_c, ex_zs. cbn [bs_knots mk_bspline map count_occ].
  repeat (destruct (Req_EM_T _ _); try (exfalso; lra)); simpl; lia.
Qed.
(** Over the rationals: at tolerance 4 both copies of 3 go, at tolerance 3 none. *)
Example C18_bound_run : map (fun tol => match bs_remove_knot exq_c 3%Q 2 tol with
  | Ok (c', r) => (map Qred (bs_knots c'), r) | _ => ([], (-1)%Z) end) [4; 3]%Q
  = [([0; 0; 0; 1; 4; 5; 6]%Q, 2%Z); ([0; 0; 0; 1; 3; 3; 4; 5; 6]%Q, 0%Z)].
Proof. vm_compute. reflexivity. Qed.

(** C18, tolerance zero: whatever is removed, inserting it again gives back the curve, and the values
    are unchanged.  This holds at the ends of the domain too (where nothing is removed). *)
Theorem C18_exact : forall d (c c' : bspline R (vec R d)) (t : R) (N : nat) (r : Z),
  valid_bspline (bs_pts c) (bs_knots c) -> knots_apart (/ IZR (10 ^ 16)) (bs_knots c) ->
  regular_start (bs_pts c) (bs_knots c) ->
  lower_of (bs_pts c) (bs_knots c) <= t <= upper_of (bs_pts c) (bs_knots c) ->
  (1 <= N <= count_occ Req_EM_T (bs_knots c) t)%nat ->
  (count_occ Req_EM_T (bs_knots c) t <= bspline_degree (bs_pts c) (bs_knots c))%nat ->
  bs_remove_knot c t (Z.of_nat N) 0 = Ok (c', r) ->
  (0 <= r <= Z.of_nat N)%Z /\ Permutation (bs_knots c) (repeat t (Z.to_nat r) ++ bs_knots c') /\
  ((1 <= r)%Z -> bs_insert_knot c' t r = Ok c) /\
  forall x, (bs_periodic c = true \/ lower_of (bs_pts c) (bs_knots c) <= x <= upper_of (bs_pts c) (bs_knots c)) ->
    bs_evaluate c' x = bs_evaluate c x.
Proof. exact bspline_remove_exact. Qed.
Print Assumptions C18_exact.
(** Its hypotheses on [ex_c] at 3 are those of [C18_bound_hyp]; the run exists by [C18_bound]. *)
Example C18_exact_hyp : exists c' r, bs_remove_knot ex_c 3 (Z.of_nat 2) 0 = Ok (c', r).
Proof.
  destruct C18_bound_hyp as (H1 & H2 & H3 & H4 & H5 & H6).
  destruct (C18_bound 2 ex_c 3 2 0 H1 H2 H3 H4 H5 H6 (Rle_refl 0)) as (c' & n & E & _). eauto.
Qed.

(** C18 at the ends of the domain: removal reports 0 there for every curve, so copies inserted at an end
    are not removed again. *)
Theorem C18_ends : forall d (c : bspline R (vec R d)) (t : R) (N : nat) (tol : R),
  valid_bspline (bs_pts c) (bs_knots c) -> (1 <= N)%nat ->
  (t = lower_of (bs_pts c) (bs_knots c) \/ t = upper_of (bs_pts c) (bs_knots c)) ->
  bs_remove_knot c t (Z.of_nat N) tol = Ok (c, 0%Z).
Proof. exact bspline_remove_ends. Qed.
Print Assumptions C18_ends.
Example C18_ends_hyp : (4 : R) = upper_of (bs_pts ex_c) (bs_knots ex_c).
Proof. now destruct ex_domain. Qed.

Theorem C18_undo_ends_refuted : forall d (c : bspline R (vec R d)) (t : R) (m : nat),
  valid_bspline (bs_pts c) (bs_knots c) -> knots_apart (/ IZR (10 ^ 16)) (bs_knots c) ->
  regular_start (bs_pts c) (bs_knots c) ->
  (t = upper_of (bs_pts c) (bs_knots c) \/
   (t = lower_of (bs_pts c) (bs_knots c) /\
    nth (bspline_degree (bs_pts c) (bs_knots c)) (bs_knots c) 0 < nth (bspline_degree (bs_pts c) (bs_knots c) + 1) (bs_knots c) 0)) ->
  (1 <= m)%nat -> (m + count_occ Req_EM_T (bs_knots c) t <= bspline_degree (bs_pts c) (bs_knots c))%nat ->
  exists c1, bs_insert_knot c t (Z.of_nat m) = Ok c1 /\ length (bs_knots c1) = (m + length (bs_knots c))%nat /\
    forall (N : nat) (tol : R), (1 <= N)%nat -> bs_remove_knot c1 t (Z.of_nat N) tol = Ok (c1, 0%Z).
Proof. exact bspline_undo_ends. Qed.
Print Assumptions C18_undo_ends_refuted.
(** The upper end 4 of [ex_c] is a simple knot, so one more copy can be inserted there. *)
Example C18_undo_ends_hyp : (4 : R) = upper_of (bs_pts ex_c) (bs_knots ex_c) /\
  (1 + count_occ Req_EM_T (bs_knots ex_c) 4%R <= bspline_degree (bs_pts ex_c) (bs_knots ex_c))%nat.
Proof.
  split; [now destruct ex_domain|]. rewrite ex_degree. unfold ex_c, ex_zs. cbn [bs_knots mk_bspline map count_occ].
  repeat (destruct (Req_EM_T _ _); try (exfalso; lra)); simpl; lia.
Qed.
Example C18_undo_ends_run : (do c1 <- bs_insert_knot exq_c 4%Q 1; do '(c2, r) <- bs_remove_knot c1 4%Q 1 0%Q; Ok (map Qred (bs_knots c2), r))
  = Ok ([0; 0; 0; 1; 3; 3; 4; 4; 5; 6]%Q, 0%Z).
Proof. vm_compute. reflexivity. Qed.
