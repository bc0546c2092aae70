(** Property theorems: B-spline curves (C03, C04, C11-C17, C21, C57, C58).  Statements only; the proofs
    are in BSplineThms*.v, BSplineInsert*.v and BSplineRefute.v.

    [valid_bspline pts knots]: n control points, n+p+1 non-decreasing knots, p < n, and a domain
    [lower_of, upper_of] = [knots[p], knots[n]] that is not a single point. *)
From Coq Require Import Reals Lra Lia ZArith QArith List Permutation.
From Verif Require Import Monad Scalar Spec ModelCurve ModelBezier ModelBSpline BSplineThms2 BSplineThms3
  BSplineInsert3 BSplineRefute ExampleFacts.
Import ListNotations.
Local Open Scope R_scope.

(** A quadratic curve in the plane with a double interior knot; used in the examples. *)
Definition ex_pts : list (vec R 2) := [(0, (0, tt)); (1, (2, tt)); (3, (1, tt)); (4, (4, tt)); (6, (0, tt)); (7, (1, tt))].
Definition ex_zs : list Z := [0; 0; 0; 1; 3; 3; 4; 5; 6]%Z.
Definition ex_c : bspline R (vec R 2) := mk_bspline ex_pts (map IZR ex_zs).
Definition exq_c : bspline Q (vec Q 2) :=
  mk_bspline [(0, (0, tt)); (1, (2, tt)); (3, (1, tt)); (4, (4, tt)); (6, (0, tt)); (7, (1, tt))]%Q
    [0; 0; 0; 1; 3; 3; 4; 5; 6]%Q.

Example ex_valid : valid_bspline (bs_pts ex_c) (bs_knots ex_c).
Proof. apply valid_of_Z. reflexivity. Qed.
Example ex_apart : knots_apart (/ IZR (10 ^ 16)) (bs_knots ex_c).
Proof. apply apart_of_Z. Qed.
Example ex_regular : regular_start (bs_pts ex_c) (bs_knots ex_c).
Proof. apply regular_of_Z; [reflexivity|simpl; lia]. Qed.
Example ex_domain : lower_of (bs_pts ex_c) (bs_knots ex_c) = 0 /\ upper_of (bs_pts ex_c) (bs_knots ex_c) = 4.
Proof. split; reflexivity. Qed.
Example ex_degree : bspline_degree (bs_pts ex_c) (bs_knots ex_c) = 2%nat.
Proof. reflexivity. Qed.

(** C03 (B-spline part): affine maps; all parameters, also periodic curves. *)
Theorem C03_bspline_affine : forall d d' (f : vec R d -> vec R d') (c : bspline R (vec R d)) t,
  (forall x a b, f (padd (pmul (1 - x) a) (pmul x b)) = padd (pmul (1 - x) (f a)) (pmul x (f b))) ->
  valid_bspline (bs_pts c) (bs_knots c) ->
  exists q, bs_evaluate c t = Ok q /\
    bs_evaluate {| bs_pts := map f (bs_pts c); bs_knots := bs_knots c; bs_periodic := bs_periodic c |} t = Ok (f q).
Proof. exact bspline_affine. Qed.
Print Assumptions C03_bspline_affine.

(** C04 (B-spline part): evaluate(t) is in the convex hull of the p+1 control points a..a+p of a span
    [knots[a+p], knots[a+p+1]] that contains t. *)
Theorem C04_bspline_convex_hull : forall d (c : bspline R (vec R d)) t,
  valid_bspline (bs_pts c) (bs_knots c) -> knots_apart (/ IZR (10 ^ 16)) (bs_knots c) ->
  bs_periodic c = false ->
  lower_of (bs_pts c) (bs_knots c) <= t <= upper_of (bs_pts c) (bs_knots c) ->
  (regular_start (bs_pts c) (bs_knots c) \/ lower_of (bs_pts c) (bs_knots c) < t) ->
  let p := bspline_degree (bs_pts c) (bs_knots c) in
  exists (a : nat) q, (a + (p + 1) <= length (bs_pts c))%nat /\
    nth (a + p) (bs_knots c) 0 <= t <= nth (a + p + 1) (bs_knots c) 0 /\
    bs_evaluate c t = Ok q /\
    convex_comb (firstn (p + 1) (skipn a (bs_pts c))) q.
Proof. exact bspline_convex. Qed.
Print Assumptions C04_bspline_convex_hull.

(** C11 (B-spline part). *)
Theorem C11_bspline_periodic_value : forall d (c : bspline R (vec R d)) t,
  valid_bspline (bs_pts c) (bs_knots c) -> bs_periodic c = true ->
  let a := lower_of (bs_pts c) (bs_knots c) in
  let b := upper_of (bs_pts c) (bs_knots c) in
  exists (u : R) (k : Z), u = t - IZR k * (b - a) /\ a <= u < b /\
    bs_evaluate c t = bs_evaluate (mk_bspline (bs_pts c) (bs_knots c)) u /\
    bs_evaluate_derivative c t = bs_evaluate_derivative (mk_bspline (bs_pts c) (bs_knots c)) u /\
    bs_evaluate_2nd_derivative c t = bs_evaluate_2nd_derivative (mk_bspline (bs_pts c) (bs_knots c)) u.
Proof. exact bspline_periodic_value. Qed.
Print Assumptions C11_bspline_periodic_value.

Theorem C11_bspline_periodic_shift : forall d (c : bspline R (vec R d)) t (m : Z),
  valid_bspline (bs_pts c) (bs_knots c) -> bs_periodic c = true ->
  let a := lower_of (bs_pts c) (bs_knots c) in
  let b := upper_of (bs_pts c) (bs_knots c) in
  bs_evaluate c (t + IZR m * (b - a)) = bs_evaluate c t /\
  bs_evaluate_derivative c (t + IZR m * (b - a)) = bs_evaluate_derivative c t /\
  bs_evaluate_2nd_derivative c (t + IZR m * (b - a)) = bs_evaluate_2nd_derivative c t.
Proof. exact bspline_periodic_shift. Qed.
Print Assumptions C11_bspline_periodic_shift.

Example C11_bspline_hyp : let c := {| bs_pts := ex_pts; bs_knots := map IZR ex_zs; bs_periodic := true |} in
  valid_bspline (bs_pts c) (bs_knots c) /\ bs_periodic c = true.
Proof. split; [exact ex_valid|reflexivity]. Qed.
Example C11_bspline_run :
  bs_evaluate {| bs_pts := bs_pts exq_c; bs_knots := bs_knots exq_c; bs_periodic := true |} (-27 # 2)%Q
  = bs_evaluate exq_c (5 # 2)%Q.
Proof. vm_compute. reflexivity. Qed.

(** C12 (B-spline part): the hodograph evaluates to the derivative. *)
Theorem C12_bspline_hodograph : forall d (c : bspline R (vec R d)), valid_bspline (bs_pts c) (bs_knots c) ->
  exists h, bs_hodograph c = Ok h /\
    forall t, (bs_periodic c = false \/ lower_of (bs_pts c) (bs_knots c) <= t < upper_of (bs_pts c) (bs_knots c)) ->
      bs_evaluate h t = bs_evaluate_derivative c t.
Proof. exact bspline_hodograph. Qed.
Print Assumptions C12_bspline_hodograph.

Example C12_bspline_run : (do h <- bs_hodograph exq_c; bs_evaluate h (5 # 2)%Q) = bs_evaluate_derivative exq_c (5 # 2)%Q
  /\ bs_evaluate_derivative exq_c (5 # 2)%Q = Ok ((13 # 12), ((25 # 12), tt))%Q.
Proof. vm_compute. split; reflexivity. Qed.

(** C13: the span search terminates without an out of range access and is correct. *)
Theorem C13_locate_span : forall d (c : bspline R (vec R d)) t, valid_bspline (bs_pts c) (bs_knots c) ->
  let p := bspline_degree (bs_pts c) (bs_knots c) in
  let n := length (bs_pts c) in
  let knot i := nth i (bs_knots c) 0 in
  exists k, locate_span c t = Ok (Z.of_nat k) /\ (p <= k < n)%nat /\
    (t < knot p -> k = p) /\
    (knot p < knot (p + 1)%nat \/ knot p < t -> knot p <= t ->
       knot k < knot (k + 1)%nat /\ (t <= knot n -> knot k <= t <= knot (k + 1)%nat) /\
       (t = knot (k + 1)%nat -> t = knot n) /\ (knot n <= t -> knot (k + 1)%nat = knot n)).
Proof. intros d. exact bspline_locate. Qed.
Print Assumptions C13_locate_span.

Example C13_run : map (locate_span exq_c) [-1; 0; 1 # 2; 1; 2; 3; 7 # 2; 4; 9]%Q
  = map Ok [2; 2; 2; 3; 3; 5; 5; 5; 5]%Z.
Proof. vm_compute. reflexivity. Qed.

(** C14: evaluate is the Cox-de Boor sum. *)
Theorem C14_bspline_evaluate : forall d (c : bspline R (vec R d)) t,
  valid_bspline (bs_pts c) (bs_knots c) -> knots_apart (/ IZR (10 ^ 16)) (bs_knots c) ->
  bs_periodic c = false ->
  lower_of (bs_pts c) (bs_knots c) <= t <= upper_of (bs_pts c) (bs_knots c) ->
  (regular_start (bs_pts c) (bs_knots c) \/ lower_of (bs_pts c) (bs_knots c) < t) ->
  bs_evaluate c t = Ok (bspline_curve (bs_pts c) (bs_knots c) t).
Proof. exact @bspline_eval. Qed.
Print Assumptions C14_bspline_evaluate.

Example C14_hyp : valid_bspline (bs_pts ex_c) (bs_knots ex_c) /\ knots_apart (/ IZR (10 ^ 16)) (bs_knots ex_c) /\
  bs_periodic ex_c = false /\ lower_of (bs_pts ex_c) (bs_knots ex_c) <= 5 / 2 <= upper_of (bs_pts ex_c) (bs_knots ex_c) /\
  regular_start (bs_pts ex_c) (bs_knots ex_c).
Proof.
  split; [exact ex_valid|]. split; [exact ex_apart|]. split; [reflexivity|]. destruct ex_domain as [-> ->].
  split; [lra|exact ex_regular].
Qed.
Example C14_run : bs_evaluate exq_c (5 # 2)%Q = Ok ((167 # 48), ((131 # 48), tt))%Q.
Proof. vm_compute. reflexivity. Qed.

(** C15: local control. *)
Theorem C15_local_control : forall d (c c' : bspline R (vec R d)) i q t,
  valid_bspline (bs_pts c) (bs_knots c) -> bs_periodic c = false ->
  bs_set_control_point c (Z.of_nat i) q = Ok c' ->
  lower_of (bs_pts c) (bs_knots c) <= t <= upper_of (bs_pts c) (bs_knots c) ->
  ~ (nth i (bs_knots c) 0 <= t <= nth (i + bspline_degree (bs_pts c) (bs_knots c) + 1) (bs_knots c) 0) ->
  exists v, bs_evaluate c t = Ok v /\ bs_evaluate c' t = Ok v.
Proof. exact @bspline_local_control. Qed.
Print Assumptions C15_local_control.

Example C15_hyp : (exists c', bs_set_control_point ex_c (Z.of_nat 1) (9, (9, tt)) = Ok c') /\
  ~ (nth 1 (bs_knots ex_c) 0 <= 7 / 2 <= nth (1 + bspline_degree (bs_pts ex_c) (bs_knots ex_c) + 1) (bs_knots ex_c) 0).
Proof. split; [eexists; reflexivity|]. rewrite ex_degree. cbn. lra. Qed.

(** C16: derivatives.  [f], [f'], [f''] are the polynomial pieces of the span of [t]; they agree with
    the code at every parameter of the span, and each is the derivative of the one before. *)
Theorem C16_bspline_derivatives : forall d (c : bspline R (vec R d)) t,
  valid_bspline (bs_pts c) (bs_knots c) -> knots_apart (/ IZR (10 ^ 16)) (bs_knots c) ->
  bs_periodic c = false ->
  lower_of (bs_pts c) (bs_knots c) <= t <= upper_of (bs_pts c) (bs_knots c) ->
  (nth (bspline_degree (bs_pts c) (bs_knots c)) (bs_knots c) 0
     < nth (bspline_degree (bs_pts c) (bs_knots c) + 1) (bs_knots c) 0
   \/ lower_of (bs_pts c) (bs_knots c) < t) ->
  exists (k : nat) (f f' f'' : R -> vec R d),
    (bspline_degree (bs_pts c) (bs_knots c) <= k < length (bs_pts c))%nat /\
    span_set (bs_knots c) (upper_of (bs_pts c) (bs_knots c)) k t /\
    nth k (bs_knots c) 0 < nth (k + 1) (bs_knots c) 0 /\
    (forall x, span_set (bs_knots c) (upper_of (bs_pts c) (bs_knots c)) k x ->
       (nth (bspline_degree (bs_pts c) (bs_knots c)) (bs_knots c) 0
          < nth (bspline_degree (bs_pts c) (bs_knots c) + 1) (bs_knots c) 0
        \/ lower_of (bs_pts c) (bs_knots c) < x) ->
       bs_evaluate c x = Ok (f x) /\ bs_evaluate_derivative c x = Ok (f' x) /\
       bs_evaluate_2nd_derivative c x = Ok (f'' x)) /\
    (forall x, vderiv f x (f' x)) /\ (forall x, vderiv f' x (f'' x)).
Proof. exact @bspline_derivs. Qed.
Print Assumptions C16_bspline_derivatives.

Example C16_run : bs_evaluate_2nd_derivative exq_c (5 # 2)%Q = Ok ((-1 # 6), ((11 # 6), tt))%Q.
Proof. vm_compute. reflexivity. Qed.

(** C17: knot insertion. *)
Theorem C17_insert_knot : forall d (c : bspline R (vec R d)) t (r : nat),
  valid_bspline (bs_pts c) (bs_knots c) -> knots_apart (/ IZR (10 ^ 16)) (bs_knots c) ->
  regular_start (bs_pts c) (bs_knots c) ->
  lower_of (bs_pts c) (bs_knots c) <= t <= upper_of (bs_pts c) (bs_knots c) ->
  (forall u, In u (bs_knots c) -> u = t \/ / IZR (10 ^ 16) < Rabs (u - t)) ->
  (nth (bspline_degree (bs_pts c) (bs_knots c)) (bs_knots c) 0
     < nth (bspline_degree (bs_pts c) (bs_knots c) + 1) (bs_knots c) 0
   \/ lower_of (bs_pts c) (bs_knots c) < t) ->
  (1 <= r)%nat -> (r + count_occ Req_EM_T (bs_knots c) t <= bspline_degree (bs_pts c) (bs_knots c))%nat ->
  exists c', bs_insert_knot c t (Z.of_nat r) = Ok c' /\ bs_periodic c' = bs_periodic c /\
    valid_bspline (bs_pts c') (bs_knots c') /\
    bspline_degree (bs_pts c') (bs_knots c') = bspline_degree (bs_pts c) (bs_knots c) /\
    Permutation (bs_knots c') (repeat t r ++ bs_knots c) /\
    lower_of (bs_pts c') (bs_knots c') = lower_of (bs_pts c) (bs_knots c) /\
    upper_of (bs_pts c') (bs_knots c') = upper_of (bs_pts c) (bs_knots c) /\
    forall x, (bs_periodic c = true \/ lower_of (bs_pts c) (bs_knots c) <= x <= upper_of (bs_pts c) (bs_knots c)) ->
      bs_evaluate c' x = bs_evaluate c x.
Proof. exact bspline_insert. Qed.
Print Assumptions C17_insert_knot.

Example C17_hyp : (forall u, In u (bs_knots ex_c) -> u = IZR 1 \/ / IZR (10 ^ 16) < Rabs (u - IZR 1)) /\
  (1 + count_occ Req_EM_T (bs_knots ex_c) (IZR 1) <= bspline_degree (bs_pts ex_c) (bs_knots ex_c))%nat /\
  nth (bspline_degree (bs_pts ex_c) (bs_knots ex_c)) (bs_knots ex_c) 0
     < nth (bspline_degree (bs_pts ex_c) (bs_knots ex_c) + 1) (bs_knots ex_c) 0.
Proof.
  split; [apply In_IZR_apart|]. split; [rewrite ex_degree; unfold ex_c; cbn [bs_knots mk_bspline]; rewrite count_IZR; apply Nat.leb_le; reflexivity|].
  rewrite ex_degree. cbn. lra.
Qed.
Example C17_run : (do c <- bs_insert_knot exq_c (2 # 1)%Q 2; bs_evaluate c (5 # 2)%Q) = bs_evaluate exq_c (5 # 2)%Q.
Proof. vm_compute. reflexivity. Qed.

(** C21: clamped ends. *)
Theorem C21_clamped_start : forall d (c : bspline R (vec R d)),
  valid_bspline (bs_pts c) (bs_knots c) -> bs_periodic c = false ->
  (forall i, (1 <= i <= bspline_degree (bs_pts c) (bs_knots c))%nat ->
     nth i (bs_knots c) 0 = lower_of (bs_pts c) (bs_knots c)) ->
  bs_evaluate c (lower_of (bs_pts c) (bs_knots c)) = Ok (hd p0 (bs_pts c)).
Proof. exact bspline_clamped_start. Qed.
Print Assumptions C21_clamped_start.

Theorem C21_clamped_end : forall d (c : bspline R (vec R d)),
  valid_bspline (bs_pts c) (bs_knots c) -> knots_apart (/ IZR (10 ^ 16)) (bs_knots c) -> bs_periodic c = false ->
  let n := length (bs_pts c) in
  nth (n - 1) (bs_knots c) 0 < nth n (bs_knots c) 0 ->
  (forall i, (n <= i < n + bspline_degree (bs_pts c) (bs_knots c))%nat ->
     nth i (bs_knots c) 0 = upper_of (bs_pts c) (bs_knots c)) ->
  bs_evaluate c (upper_of (bs_pts c) (bs_knots c)) = Ok (last (bs_pts c) p0).
Proof. exact bspline_clamped_end. Qed.
Print Assumptions C21_clamped_end.

Example C21_hyp : let c := mk_bspline [(0, (0, tt)); (1, (2, tt)); (3, (1, tt)); (4, (4, tt))] (map IZR [0; 0; 0; 2; 5; 5; 5]%Z) : bspline R (vec R 2) in
  valid_bspline (bs_pts c) (bs_knots c) /\
  (forall i, (1 <= i <= bspline_degree (bs_pts c) (bs_knots c))%nat ->
     nth i (bs_knots c) 0 = lower_of (bs_pts c) (bs_knots c)) /\
  nth 3 (bs_knots c) 0 < nth 4 (bs_knots c) 0 /\
  (forall i, (4 <= i < 4 + bspline_degree (bs_pts c) (bs_knots c))%nat ->
     nth i (bs_knots c) 0 = upper_of (bs_pts c) (bs_knots c)).
Proof.
  intros c. split; [apply valid_of_Z; reflexivity|].
  change (bspline_degree (bs_pts c) (bs_knots c)) with 2%nat.
  split; [intros i Hi; assert (i = 1 \/ i = 2)%nat as [-> | ->] by lia; reflexivity|].
  split; [cbn; lra|]. intros i Hi; assert (i = 4 \/ i = 5)%nat as [-> | ->] by lia; reflexivity.
Qed.

(** C57: the claim of C14 without the hypothesis on the start of the domain is false: with p+1 or more
    equal knots ending after the domain start (here p = 1, knots 0,0,0,1,2,3) evaluate(lower bound)
    does not return the curve's value. *)
Theorem C57_evaluate_overfull_start_refuted : exists (c : bspline R (vec R 1)),
  valid_bspline (bs_pts c) (bs_knots c) /\ knots_apart (/ IZR (10 ^ 16)) (bs_knots c) /\ bs_periodic c = false /\
  bs_evaluate c (lower_of (bs_pts c) (bs_knots c)) <> Ok (bspline_curve (bs_pts c) (bs_knots c) (lower_of (bs_pts c) (bs_knots c))).
Proof. exact eval_start_wrong. Qed.
Print Assumptions C57_evaluate_overfull_start_refuted.

(** C58: the claim of C17 without the hypothesis that the first span of the domain is not empty is
    false: inserting the domain start once more changes the curve, and so does converting to Bezier. *)
Theorem C58_insert_at_start_refuted : exists (c c' : bspline R (vec R 1)),
  valid_bspline (bs_pts c) (bs_knots c) /\ knots_apart (/ IZR (10 ^ 16)) (bs_knots c) /\ bs_periodic c = false /\
  regular_start (bs_pts c) (bs_knots c) /\
  (1 + count_occ Req_EM_T (bs_knots c) (lower_of (bs_pts c) (bs_knots c)) <= bspline_degree (bs_pts c) (bs_knots c))%nat /\
  bs_insert_knot c (lower_of (bs_pts c) (bs_knots c)) 1 = Ok c' /\
  bs_evaluate c' (lower_of (bs_pts c) (bs_knots c)) <> bs_evaluate c (lower_of (bs_pts c) (bs_knots c)).
Proof. exact insert_start_wrong. Qed.
Print Assumptions C58_insert_at_start_refuted.

Theorem C58_convert_at_start_refuted : exists (c : bspline R (vec R 1)) b rest bounds,
  valid_bspline (bs_pts c) (bs_knots c) /\ knots_apart (/ IZR (10 ^ 16)) (bs_knots c) /\ bs_periodic c = false /\
  regular_start (bs_pts c) (bs_knots c) /\
  bs_convert_to_Bezier c = Ok (b :: rest, bounds) /\
  hd 0 bounds = lower_of (bs_pts c) (bs_knots c) /\
  Ok (hd p0 (bz_pts b)) <> bs_evaluate c (lower_of (bs_pts c) (bs_knots c)).
Proof. exact convert_start_wrong. Qed.
Print Assumptions C58_convert_at_start_refuted.
