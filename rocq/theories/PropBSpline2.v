(** Property theorems: B-spline curves, continued (C19, C20, C60, C61).  Statements only; the proofs are
    in BSplineSplit.v, BSplineConvert.v and BSplineRefute.v.  The example curve [ex_c] is that of
    PropBSpline.v. *)
From Coq Require Import Reals Lra Lia ZArith QArith List Permutation.
From Verif Require Import Monad Scalar Spec ModelCurve ModelBezier ModelBSpline BSplineSplit BSplineConvert
  BSplineRefute ExampleFacts PropBSpline.
Import ListNotations.
Local Open Scope R_scope.

(** C19: the Bezier segments of a B-spline curve.  [bounds] are exactly the knots in the domain, in
    increasing order, and segment j traces the curve between bounds j and j+1.  At its right end point
    a segment agrees with the curve if it is the last one or if the knot there has multiplicity at most p
    (with a knot of multiplicity p+1 the curve itself may jump). *)
Theorem C19_convert_to_Bezier : forall d (c : bspline R (vec R d)),
  valid_bspline (bs_pts c) (bs_knots c) -> knots_apart (/ IZR (10 ^ 16)) (bs_knots c) ->
  nth (bspline_degree (bs_pts c) (bs_knots c)) (bs_knots c) 0
    < nth (bspline_degree (bs_pts c) (bs_knots c) + 1) (bs_knots c) 0 ->
  exists segs bounds, bs_convert_to_Bezier c = Ok (segs, bounds) /\
    length bounds = S (length segs) /\
    nth 0 bounds 0 = lower_of (bs_pts c) (bs_knots c) /\
    nth (length segs) bounds 0 = upper_of (bs_pts c) (bs_knots c) /\
    (forall u, In u bounds <-> (In u (bs_knots c) /\ lower_of (bs_pts c) (bs_knots c) <= u <= upper_of (bs_pts c) (bs_knots c))) /\
    (forall j, (j < length segs)%nat -> nth j bounds 0 < nth (j + 1) bounds 0) /\
    forall j, (j < length segs)%nat -> exists l, nth_error segs j = Some (mk_bezier l) /\
      length l = S (bspline_degree (bs_pts c) (bs_knots c)) /\
      forall x, (nth j bounds 0 <= x < nth (j + 1) bounds 0 \/
                 (x = nth (j + 1) bounds 0 /\ (S j = length segs \/
                    (count_occ Req_EM_T (bs_knots c) x <= bspline_degree (bs_pts c) (bs_knots c))%nat))) ->
        bz_evaluate (mk_bezier l) ((x - nth j bounds 0) / (nth (j + 1) bounds 0 - nth j bounds 0))
          = bs_evaluate (mk_bspline (bs_pts c) (bs_knots c)) x.
Proof. exact bspline_convert. Qed.
Print Assumptions C19_convert_to_Bezier.

Example C19_hyp : valid_bspline (bs_pts ex_c) (bs_knots ex_c) /\ knots_apart (/ IZR (10 ^ 16)) (bs_knots ex_c) /\
  nth (bspline_degree (bs_pts ex_c) (bs_knots ex_c)) (bs_knots ex_c) 0
    < nth (bspline_degree (bs_pts ex_c) (bs_knots ex_c) + 1) (bs_knots ex_c) 0.
Proof. split; [exact ex_valid|]. split; [exact ex_apart|]. unfold bspline_degree. cbn. lra. Qed.
(** The same curve over the rationals: three segments over 0,1,3,4. *)
Example C19_run : match bs_convert_to_Bezier exq_c with
  | Ok (segs, bounds) => (length segs, map Qred bounds) | _ => (0%nat, []) end = (3%nat, [0; 1; 3; 4]%Q).
Proof. vm_compute. reflexivity. Qed.

(** C20: splitting inside the domain, degree at least 1. *)
Theorem C20_split : forall d (c : bspline R (vec R d)) t,
  valid_bspline (bs_pts c) (bs_knots c) -> knots_apart (/ IZR (10 ^ 16)) (bs_knots c) ->
  regular_start (bs_pts c) (bs_knots c) -> (1 <= bspline_degree (bs_pts c) (bs_knots c))%nat ->
  lower_of (bs_pts c) (bs_knots c) < t < upper_of (bs_pts c) (bs_knots c) ->
  (forall u, In u (bs_knots c) -> u = t \/ / IZR (10 ^ 16) < Rabs (u - t)) ->
  exists c1 c2, split_bspline c t = Ok [c1; c2] /\
    bs_periodic c1 = false /\ bs_periodic c2 = false /\
    valid_bspline (bs_pts c1) (bs_knots c1) /\ valid_bspline (bs_pts c2) (bs_knots c2) /\
    bspline_degree (bs_pts c1) (bs_knots c1) = bspline_degree (bs_pts c) (bs_knots c) /\
    bspline_degree (bs_pts c2) (bs_knots c2) = bspline_degree (bs_pts c) (bs_knots c) /\
    lower_of (bs_pts c1) (bs_knots c1) = lower_of (bs_pts c) (bs_knots c) /\
    upper_of (bs_pts c1) (bs_knots c1) = t /\
    lower_of (bs_pts c2) (bs_knots c2) = t /\
    upper_of (bs_pts c2) (bs_knots c2) = upper_of (bs_pts c) (bs_knots c) /\
    (forall x, lower_of (bs_pts c) (bs_knots c) <= x < t ->
       bs_evaluate c1 x = bs_evaluate (mk_bspline (bs_pts c) (bs_knots c)) x) /\
    ((count_occ Req_EM_T (bs_knots c) t <= bspline_degree (bs_pts c) (bs_knots c))%nat ->
       bs_evaluate c1 t = bs_evaluate (mk_bspline (bs_pts c) (bs_knots c)) t) /\
    (forall x, t <= x <= upper_of (bs_pts c) (bs_knots c) ->
       bs_evaluate c2 x = bs_evaluate (mk_bspline (bs_pts c) (bs_knots c)) x).
Proof. exact bspline_split. Qed.
Print Assumptions C20_split.

Example C20_hyp : (1 <= bspline_degree (bs_pts ex_c) (bs_knots ex_c))%nat /\
  lower_of (bs_pts ex_c) (bs_knots ex_c) < 1 < upper_of (bs_pts ex_c) (bs_knots ex_c) /\
  (forall u, In u (bs_knots ex_c) -> u = IZR 1 \/ / IZR (10 ^ 16) < Rabs (u - IZR 1)).
Proof.
  split; [unfold bspline_degree; cbn; lia|]. destruct ex_domain as [-> ->]. split; [lra|]. apply In_IZR_apart.
Qed.
(** Over the rationals, split at 1/2: end knots and the shared point. *)
Example C20_run : match split_bspline exq_c (1#2)%Q with
  | Ok [a; b] => (map Qred (bs_knots a), map Qred (bs_knots b)) | _ => ([], []) end
  = ([0; 0; 0; 1#2; 1#2; 1#2]%Q, [1#2; 1#2; 1#2; 1; 3; 3; 4; 5; 6]%Q).
Proof. vm_compute. reflexivity. Qed.

(** C20 at the ends of the domain, and outside it. *)
Theorem C20_split_ends : forall d (c : bspline R (vec R d)) t, valid_bspline (bs_pts c) (bs_knots c) ->
  t = lower_of (bs_pts c) (bs_knots c) \/ t = upper_of (bs_pts c) (bs_knots c) -> split_bspline c t = Ok [c].
Proof. exact bspline_split_ends. Qed.
Print Assumptions C20_split_ends.

Theorem C20_split_outside : forall d (c : bspline R (vec R d)) t, valid_bspline (bs_pts c) (bs_knots c) ->
  t < lower_of (bs_pts c) (bs_knots c) - / IZR (2 ^ 52) \/ upper_of (bs_pts c) (bs_knots c) + / IZR (2 ^ 52) < t ->
  split_bspline c t = Throw invalid_setting_error.
Proof. exact bspline_split_outside. Qed.
Print Assumptions C20_split_outside.

Example C20_outside_hyp : upper_of (bs_pts ex_c) (bs_knots ex_c) + / IZR (2 ^ 52) < 5.
Proof.
  destruct ex_domain as [_ ->]. assert (/ IZR (2 ^ 52) < / 1) by (apply Rinv_lt_contravar; [rewrite Rmult_1_l|]; apply IZR_lt; reflexivity).
  rewrite Rinv_1 in H. lra.
Qed.

(** C60: the claim of C20 for degree 0 is false: the pieces end at the nearest knots, not at [t]. *)
Theorem C60_split_degree_0_refuted : exists (c c1 c2 : bspline R (vec R 1)) t,
  valid_bspline (bs_pts c) (bs_knots c) /\ knots_apart (/ IZR (10 ^ 16)) (bs_knots c) /\ bs_periodic c = false /\
  regular_start (bs_pts c) (bs_knots c) /\
  lower_of (bs_pts c) (bs_knots c) < t < upper_of (bs_pts c) (bs_knots c) /\
  split_bspline c t = Ok [c1; c2] /\
  upper_of (bs_pts c1) (bs_knots c1) < t < lower_of (bs_pts c2) (bs_knots c2).
Proof. exact split_degree0_wrong. Qed.
Print Assumptions C60_split_degree_0_refuted.

(** C61: insert_knot accepts parameters up to 2^-52 below the domain and then returns an unsorted knot
    vector. *)
Theorem C61_insert_below_domain_refuted : exists (c c' : bspline R (vec R 1)) t,
  valid_bspline (bs_pts c) (bs_knots c) /\ knots_apart (/ IZR (10 ^ 16)) (bs_knots c) /\ bs_periodic c = false /\
  regular_start (bs_pts c) (bs_knots c) /\
  (forall u, In u (bs_knots c) -> u = t \/ / IZR (10 ^ 16) < Rabs (u - t)) /\
  (1 + count_occ Req_EM_T (bs_knots c) t <= bspline_degree (bs_pts c) (bs_knots c))%nat /\
  bs_in_domain c t = Ok true /\
  bs_insert_knot c t 1 = Ok c' /\ ~ nondecreasing (bs_knots c').
Proof. exact insert_tolerance_wrong. Qed.
Print Assumptions C61_insert_below_domain_refuted.
