(** Property theorems: rational Bezier curves and NURBS curves (C23-C28, C55, C62-C64).  Statements only;
    the proofs are in RationalThms*.v and RationalRefute.v.

    [rb_initialize c = Ok c] (or [nb_initialize c = Ok c]) says that the object [c] holds exactly what
    initialize() computes from its own control points, weights (and knots). *)
From Coq Require Import Reals Lra Lia ZArith QArith List Permutation.
From Verif Require Import Monad Scalar Spec ModelCurve ModelBezier ModelBSpline ModelRational RationalThms RationalThms2
  RationalThms3 RationalRefute ExampleFacts.
Import ListNotations.
Local Open Scope R_scope.

(** A rational quadratic (weights 1,2,1) and a NURBS curve of degree 2 with a double interior knot. *)
Definition ex_rb_pts : list (vec R 2) := [(1, (0, tt)); (1, (1, tt)); (0, (1, tt))].
Definition ex_rb : rbezier R 2 := rb_set_weights (rb_set_control_points rb_empty ex_rb_pts) [1; 2; 1].
Definition ex_nb_pts : list (vec R 2) := [(0, (0, tt)); (1, (2, tt)); (3, (1, tt)); (4, (4, tt)); (6, (0, tt)); (7, (1, tt))].
Definition ex_nb_zs : list Z := [0; 0; 0; 1; 3; 3; 4; 5; 6]%Z.
Definition ex_nb : nurbs R 2 :=
  nb_set_weights (nb_set_knots (nb_set_control_points nb_empty ex_nb_pts) (map IZR ex_nb_zs)) [1; 2; 1; 3; 1; 1].
Definition exq_rb_pts : list (vec Q 2) := [(1, (0, tt)); (1, (1, tt)); (0, (1, tt))]%Q.
Definition exq_rb : res (rbezier Q 2) := mk_rbezier exq_rb_pts [1; 2; 1]%Q.
Definition exq_nb_pts : list (vec Q 2) := [(0, (0, tt)); (1, (2, tt)); (3, (1, tt)); (4, (4, tt)); (6, (0, tt)); (7, (1, tt))]%Q.
Definition exq_nb : res (nurbs Q 2) := mk_nurbs exq_nb_pts [0; 0; 0; 1; 3; 3; 4; 5; 6]%Q [1; 2; 1; 3; 1; 1]%Q.

Example ex_rb_hyp : rb_pts ex_rb <> [] /\ length (rb_weights ex_rb) = length (rb_pts ex_rb) /\ rb_periodic ex_rb = false.
Proof. repeat split. discriminate. Qed.
Example ex_nb_hyp : length (nb_weights ex_nb) = length (nb_pts ex_nb) /\ nb_periodic ex_nb = false /\
  valid_bspline (nb_pts ex_nb) (nb_knots ex_nb) /\ knots_apart (/ IZR (10 ^ 16)) (nb_knots ex_nb) /\
  regular_start (nb_pts ex_nb) (nb_knots ex_nb) /\ Forall (fun w => 0 < w) (nb_weights ex_nb).
Proof.
  split; [reflexivity|]. split; [reflexivity|]. split; [apply valid_of_Z; reflexivity|]. split; [apply apart_of_Z|].
  split; [apply regular_of_Z; [reflexivity|simpl; lia]|]. repeat constructor; lra.
Qed.
(** Both can be initialised, and the result is a fixed point of initialize. *)
Example ex_rb_init : exists c, rb_initialize ex_rb = Ok c /\ rb_initialize c = Ok c.
Proof. eexists. split; [apply rb_init_ok; reflexivity|reflexivity]. Qed.
Example ex_nb_init : exists c, nb_initialize ex_nb = Ok c /\ nb_initialize c = Ok c.
Proof. eexists. split; [apply nb_init_ok; reflexivity|reflexivity]. Qed.

(** C23: evaluation is the weighted mean; a zero denominator is a division by zero. *)
Theorem C23_rational_bezier : forall d (c0 : rbezier R d) t,
  rb_pts c0 <> [] -> length (rb_weights c0) = length (rb_pts c0) -> rb_periodic c0 = false ->
  let n := length (rb_pts c0) in
  exists c, rb_initialize c0 = Ok c /\
    (weight_sum n (bezier_basis n t) (rb_weights c0) <> 0 ->
       rb_evaluate c t = Ok (weighted_mean n (bezier_basis n t) (rb_weights c0) (rb_pts c0))) /\
    (weight_sum n (bezier_basis n t) (rb_weights c0) = 0 -> rb_evaluate c t = NonFinite).
Proof. exact rational_bezier_eval. Qed.
Print Assumptions C23_rational_bezier.

Theorem C23_nurbs : forall d (c0 : nurbs R d) t,
  length (nb_weights c0) = length (nb_pts c0) -> nb_periodic c0 = false ->
  valid_bspline (nb_pts c0) (nb_knots c0) -> knots_apart (/ IZR (10 ^ 16)) (nb_knots c0) ->
  lower_of (nb_pts c0) (nb_knots c0) <= t <= upper_of (nb_pts c0) (nb_knots c0) ->
  (regular_start (nb_pts c0) (nb_knots c0) \/ lower_of (nb_pts c0) (nb_knots c0) < t) ->
  let n := length (nb_pts c0) in
  exists c, nb_initialize c0 = Ok c /\
    (weight_sum n (bspline_basis n (nb_knots c0) t) (nb_weights c0) <> 0 ->
       nb_evaluate c t = Ok (weighted_mean n (bspline_basis n (nb_knots c0) t) (nb_weights c0) (nb_pts c0))) /\
    (weight_sum n (bspline_basis n (nb_knots c0) t) (nb_weights c0) = 0 -> nb_evaluate c t = NonFinite).
Proof. exact rational_bspline_eval. Qed.
Print Assumptions C23_nurbs.

Example C23_run : (do c <- exq_rb; rb_evaluate c (1 # 2)%Q) = Ok ((5 # 6), ((5 # 6), tt))%Q /\
  (do c <- exq_nb; nb_evaluate c (5 # 2)%Q) = Ok ((385 # 104), ((27 # 8), tt))%Q.
Proof. vm_compute. split; reflexivity. Qed.

(** C24: the derivatives. *)
Theorem C24_rational_bezier : forall d (c : rbezier R d),
  rb_initialize c = Ok c -> rb_pts c <> [] -> rb_periodic c = false ->
  let n := length (rb_pts c) in
  exists f f' f'' : R -> vec R d, forall t, weight_sum n (bezier_basis n t) (rb_weights c) <> 0 ->
    rb_evaluate c t = Ok (f t) /\ rb_evaluate_derivative c t = Ok (f' t) /\ rb_evaluate_2nd_derivative c t = Ok (f'' t) /\
    vderiv f t (f' t) /\ vderiv f' t (f'' t).
Proof. exact rational_bezier_derivs. Qed.
Print Assumptions C24_rational_bezier.

Theorem C24_nurbs : forall d (c : nurbs R d) t, nb_initialize c = Ok c -> nb_periodic c = false ->
  valid_bspline (nb_pts c) (nb_knots c) -> knots_apart (/ IZR (10 ^ 16)) (nb_knots c) ->
  lower_of (nb_pts c) (nb_knots c) <= t <= upper_of (nb_pts c) (nb_knots c) ->
  (nth (bspline_degree (nb_pts c) (nb_knots c)) (nb_knots c) 0 < nth (bspline_degree (nb_pts c) (nb_knots c) + 1) (nb_knots c) 0
   \/ lower_of (nb_pts c) (nb_knots c) < t) ->
  let n := length (nb_pts c) in
  exists (k : nat) (f f' f'' : R -> vec R d),
    (bspline_degree (nb_pts c) (nb_knots c) <= k < n)%nat /\
    span_set (nb_knots c) (upper_of (nb_pts c) (nb_knots c)) k t /\
    nth k (nb_knots c) 0 < nth (k + 1) (nb_knots c) 0 /\
    (forall x, span_set (nb_knots c) (upper_of (nb_pts c) (nb_knots c)) k x ->
       (nth (bspline_degree (nb_pts c) (nb_knots c)) (nb_knots c) 0 < nth (bspline_degree (nb_pts c) (nb_knots c) + 1) (nb_knots c) 0
        \/ lower_of (nb_pts c) (nb_knots c) < x) ->
       weight_sum n (bspline_basis n (nb_knots c) x) (nb_weights c) <> 0 ->
       nb_evaluate c x = Ok (f x) /\ nb_evaluate_derivative c x = Ok (f' x) /\ nb_evaluate_2nd_derivative c x = Ok (f'' x) /\
       vderiv f x (f' x) /\ vderiv f' x (f'' x)).
Proof. exact rational_bspline_derivs. Qed.
Print Assumptions C24_nurbs.

Example C24_run : (do c <- exq_rb; rb_evaluate_derivative c (1 # 2)%Q) = Ok ((-2 # 3), ((2 # 3), tt))%Q.
Proof. vm_compute. reflexivity. Qed.

(** C25: any sequence of element-wise setters leaves the curve equal to a freshly initialised one. *)
Theorem C25_rational_bezier_history : forall d (c0 c : rbezier R d) (ks : list (rb_call R d)),
  rb_initialize c0 = Ok c ->
  Forall (fun k => (rb_index k < length (rb_pts c0))%nat) ks ->
  exists c', rb_run ks c = Ok c' /\
    rb_pts c' = rb_points_after ks (rb_pts c0) /\ rb_weights c' = rb_weights_after ks (rb_weights c0) /\
    rb_initialize c' = Ok c' /\
    (forall c1, rb_pts c1 = rb_pts c' -> rb_weights c1 = rb_weights c' -> rb_periodic c1 = rb_periodic c0 ->
       rb_initialize c1 = Ok c').
Proof. exact @rbezier_history. Qed.
Print Assumptions C25_rational_bezier_history.

Theorem C25_nurbs_history : forall d (c0 c c' : nurbs R d) (ks : list (nb_call R d)),
  nb_initialize c0 = Ok c -> nb_run ks c = Ok c' ->
  nb_initialize c' = Ok c' /\
  (forall c1, nb_pts c1 = nb_pts c' -> nb_knots c1 = nb_knots c' -> nb_weights c1 = nb_weights c' ->
     nb_periodic c1 = nb_periodic c' -> nb_initialize c1 = Ok c').
Proof. exact @nurbs_history. Qed.
Print Assumptions C25_nurbs_history.

Theorem C25_nurbs_setters : forall d (c0 c : nurbs R d), nb_initialize c0 = Ok c ->
  (length (nb_pts c0) + 1 <= length (nb_knots c0))%nat ->
  (forall i p, (i < length (nb_pts c0))%nat -> exists c', nb_step c (NSetPoint i p) = Ok c' /\
     nb_pts c' = replace_nth (nb_pts c) i p /\ nb_weights c' = nb_weights c /\ nb_knots c' = nb_knots c) /\
  (forall i w, (i < length (nb_pts c0))%nat -> exists c', nb_step c (NSetWeight i w) = Ok c' /\
     nb_pts c' = nb_pts c /\ nb_weights c' = replace_nth (nb_weights c) i w /\ nb_knots c' = nb_knots c) /\
  (forall i u, (i < length (nb_knots c0))%nat -> exists c', nb_step c (NSetKnot i u) = Ok c' /\
     nb_pts c' = nb_pts c /\ nb_weights c' = nb_weights c /\ nb_knots c' = replace_nth (nb_knots c) i u).
Proof. exact @nurbs_setters. Qed.
Print Assumptions C25_nurbs_setters.

Definition exq_calls : list (nb_call Q 2) :=
  [NSetWeight 1 (5#1)%Q; NInsert (2#1)%Q 1; NSetPoint 3 (((9#1), ((9#1), tt))%Q : vec Q 2); NSetKnot 8 (11#2)%Q].
Example C25_run : exists c', (do c <- exq_nb; nb_run exq_calls c) = Ok c'.
Proof. eexists. vm_compute. reflexivity. Qed.

(** C26: false; the bulk setters have no effect on evaluate until initialize is called again. *)
Theorem C26_bulk_setters_no_effect : forall d (c : rbezier R d) pts ws t, rb_initialize c = Ok c ->
  length pts = length (rb_pts c) -> length ws = length (rb_pts c) ->
  rb_evaluate (rb_set_weights (rb_set_control_points c pts) ws) t = rb_evaluate c t.
Proof. exact bulk_setters_no_effect. Qed.
Print Assumptions C26_bulk_setters_no_effect.

Theorem C26_bulk_points_refuted : exists (c0 c c1 : rbezier R 1) (pts : list (vec R 1)) (a b : vec R 1),
  rb_initialize c0 = Ok c /\ length pts = length (rb_pts c) /\
  rb_evaluate (rb_set_control_points c pts) 1 = Ok a /\
  rb_initialize (rb_set_control_points c pts) = Ok c1 /\ rb_evaluate c1 1 = Ok b /\ a <> b.
Proof. exact bulk_points_stale. Qed.
Print Assumptions C26_bulk_points_refuted.

Theorem C26_bulk_weights_refuted : exists (c0 c c1 : rbezier R 1) (ws : list R) (t : R) (a b : vec R 1),
  rb_initialize c0 = Ok c /\ length ws = length (rb_pts c) /\
  rb_evaluate (rb_set_weights c ws) t = Ok a /\
  rb_initialize (rb_set_weights c ws) = Ok c1 /\ rb_evaluate c1 t = Ok b /\ a <> b.
Proof. exact bulk_weights_stale. Qed.
Print Assumptions C26_bulk_weights_refuted.

(** C27: weight invariances (also periodic curves). *)
Theorem C27_bezier_scale : forall d (c0 c : rbezier R d) k t, k <> 0 -> rb_pts c0 <> [] -> rb_initialize c0 = Ok c ->
  exists c', rb_initialize (rb_set_weights c0 (map (Rmult k) (rb_weights c0))) = Ok c' /\ rb_evaluate c' t = rb_evaluate c t.
Proof. exact @rb_scale_weights. Qed.
Print Assumptions C27_bezier_scale.

Theorem C27_bezier_equal : forall d (c : rbezier R d) w t, w <> 0 -> rb_pts c <> [] -> rb_initialize c = Ok c ->
  rb_weights c = repeat w (length (rb_pts c)) ->
  rb_evaluate c t = bz_evaluate {| bz_pts := rb_pts c; bz_periodic := rb_periodic c |} t.
Proof. exact @rb_equal_weights. Qed.
Print Assumptions C27_bezier_equal.

Theorem C27_nurbs_scale : forall d (c0 c : nurbs R d) k t, k <> 0 -> valid_bspline (nb_pts c0) (nb_knots c0) -> nb_initialize c0 = Ok c ->
  exists c', nb_initialize (nb_set_weights c0 (map (Rmult k) (nb_weights c0))) = Ok c' /\ nb_evaluate c' t = nb_evaluate c t.
Proof. exact @nb_scale_weights. Qed.
Print Assumptions C27_nurbs_scale.

Theorem C27_nurbs_equal : forall d (c : nurbs R d) w t, w <> 0 -> valid_bspline (nb_pts c) (nb_knots c) -> nb_initialize c = Ok c ->
  nb_weights c = repeat w (length (nb_pts c)) ->
  nb_evaluate c t = bs_evaluate {| bs_pts := nb_pts c; bs_knots := nb_knots c; bs_periodic := nb_periodic c |} t.
Proof. exact @nb_equal_weights. Qed.
Print Assumptions C27_nurbs_equal.

Example C27_run : (do c <- exq_rb; rb_evaluate c (1 # 3)%Q) =
  (do c <- exq_rb; do c <- rb_initialize (rb_set_weights c [3; 6; 3]%Q); rb_evaluate c (1 # 3)%Q).
Proof. vm_compute. reflexivity. Qed.

(** C28: conversions (curves that are not periodic; see C62). *)
Theorem C28_bezier_to_rational : forall d (c : bezier (vec R d)), bz_pts c <> [] ->
  exists c', bezier_to_rbezier c = Ok c' /\ rb_initialize c' = Ok c' /\ rb_pts c' = bz_pts c /\ rb_periodic c' = false /\
    forall t, rb_evaluate c' t = bz_evaluate (mk_bezier (bz_pts c)) t.
Proof. exact @bezier_to_rational. Qed.
Print Assumptions C28_bezier_to_rational.

Theorem C28_rational_to_bezier : forall d (c : rbezier R d), rb_initialize c = Ok c -> rb_pts c <> [] ->
  (forall w, w <> 0 -> rb_weights c = repeat w (length (rb_pts c)) ->
     exists c', rbezier_to_bezier c = Ok c' /\ bz_pts c' = rb_pts c /\
       (rb_periodic c = false -> forall t, bz_evaluate c' t = rb_evaluate c t)) /\
  ((forall w, rb_weights c <> repeat w (length (rb_pts c))) -> rbezier_to_bezier c = Throw invalid_setting_error).
Proof. exact @rational_to_bezier. Qed.
Print Assumptions C28_rational_to_bezier.

Theorem C28_bspline_to_nurbs : forall d (c : bspline R (vec R d)), valid_bspline (bs_pts c) (bs_knots c) ->
  exists c', bspline_to_nurbs c = Ok c' /\ nb_initialize c' = Ok c' /\ nb_pts c' = bs_pts c /\ nb_knots c' = bs_knots c /\
    nb_periodic c' = false /\
    forall t, nb_evaluate c' t = bs_evaluate (mk_bspline (bs_pts c) (bs_knots c)) t.
Proof. exact @bspline_to_rational. Qed.
Print Assumptions C28_bspline_to_nurbs.

Theorem C28_nurbs_to_bspline : forall d (c : nurbs R d), nb_initialize c = Ok c -> valid_bspline (nb_pts c) (nb_knots c) ->
  (forall w, w <> 0 -> nb_weights c = repeat w (length (nb_pts c)) ->
     exists c', nurbs_to_bspline c = Ok c' /\ bs_pts c' = nb_pts c /\ bs_knots c' = nb_knots c /\
       (nb_periodic c = false -> forall t, bs_evaluate c' t = nb_evaluate c t)) /\
  ((forall w, nb_weights c <> repeat w (length (nb_pts c))) -> nurbs_to_bspline c = Throw invalid_setting_error).
Proof. exact @rational_to_bspline. Qed.
Print Assumptions C28_nurbs_to_bspline.

(** Both cases of the last theorem happen. *)
Example C28_hyp : (forall w, nb_weights ex_nb <> repeat w (length (nb_pts ex_nb))) /\ [2; 2] = repeat 2 2.
Proof. split; [|reflexivity]. intros w E. cbn in E. injection E as E1 E2. lra. Qed.

(** C55 and the NURBS -> RationalBezier part of C28.  [cn] is the curve with the periodic flag off. *)
Theorem C55_insert_knot : forall d (c : nurbs R d) t (r : nat),
  nb_initialize c = Ok c -> Forall (fun w => 0 < w) (nb_weights c) ->
  valid_bspline (nb_pts c) (nb_knots c) -> knots_apart (/ IZR (10 ^ 16)) (nb_knots c) ->
  regular_start (nb_pts c) (nb_knots c) ->
  lower_of (nb_pts c) (nb_knots c) <= t <= upper_of (nb_pts c) (nb_knots c) ->
  (forall u, In u (nb_knots c) -> u = t \/ / IZR (10 ^ 16) < Rabs (u - t)) ->
  (nth (bspline_degree (nb_pts c) (nb_knots c)) (nb_knots c) 0 < nth (bspline_degree (nb_pts c) (nb_knots c) + 1) (nb_knots c) 0
   \/ lower_of (nb_pts c) (nb_knots c) < t) ->
  (1 <= r)%nat -> (r + count_occ Req_EM_T (nb_knots c) t <= bspline_degree (nb_pts c) (nb_knots c))%nat ->
  exists c', nb_insert_knot c t (Z.of_nat r) = Ok c' /\ nb_initialize c' = Ok c' /\ nb_periodic c' = nb_periodic c /\
    Forall (fun w => 0 < w) (nb_weights c') /\
    valid_bspline (nb_pts c') (nb_knots c') /\
    bspline_degree (nb_pts c') (nb_knots c') = bspline_degree (nb_pts c) (nb_knots c) /\
    Permutation (nb_knots c') (repeat t r ++ nb_knots c) /\
    lower_of (nb_pts c') (nb_knots c') = lower_of (nb_pts c) (nb_knots c) /\
    upper_of (nb_pts c') (nb_knots c') = upper_of (nb_pts c) (nb_knots c) /\
    (forall x, (nb_periodic c = true \/ lower_of (nb_pts c) (nb_knots c) <= x <= upper_of (nb_pts c) (nb_knots c)) ->
      nb_evaluate c' x = nb_evaluate c x).
Proof. exact @nurbs_insert. Qed.
Print Assumptions C55_insert_knot.

Theorem C55_split : forall d (c cn : nurbs R d) t, nb_initialize c = Ok c -> Forall (fun w => 0 < w) (nb_weights c) ->
  nb_initialize (nb_set_periodic c false) = Ok cn ->
  valid_bspline (nb_pts c) (nb_knots c) -> knots_apart (/ IZR (10 ^ 16)) (nb_knots c) ->
  regular_start (nb_pts c) (nb_knots c) -> (1 <= bspline_degree (nb_pts c) (nb_knots c))%nat ->
  lower_of (nb_pts c) (nb_knots c) < t < upper_of (nb_pts c) (nb_knots c) ->
  (forall u, In u (nb_knots c) -> u = t \/ / IZR (10 ^ 16) < Rabs (u - t)) ->
  exists c1 c2, split_nurbs c t = Ok [c1; c2] /\ nb_initialize c1 = Ok c1 /\ nb_initialize c2 = Ok c2 /\
    nb_periodic c1 = false /\ nb_periodic c2 = false /\
    Forall (fun w => 0 < w) (nb_weights c1) /\ Forall (fun w => 0 < w) (nb_weights c2) /\
    valid_bspline (nb_pts c1) (nb_knots c1) /\ valid_bspline (nb_pts c2) (nb_knots c2) /\
    lower_of (nb_pts c1) (nb_knots c1) = lower_of (nb_pts c) (nb_knots c) /\ upper_of (nb_pts c1) (nb_knots c1) = t /\
    lower_of (nb_pts c2) (nb_knots c2) = t /\ upper_of (nb_pts c2) (nb_knots c2) = upper_of (nb_pts c) (nb_knots c) /\
    (forall x, lower_of (nb_pts c) (nb_knots c) <= x < t -> nb_evaluate c1 x = nb_evaluate cn x) /\
    ((count_occ Req_EM_T (nb_knots c) t <= bspline_degree (nb_pts c) (nb_knots c))%nat -> nb_evaluate c1 t = nb_evaluate cn t) /\
    (forall x, t <= x <= upper_of (nb_pts c) (nb_knots c) -> nb_evaluate c2 x = nb_evaluate cn x).
Proof. exact @nurbs_split. Qed.
Print Assumptions C55_split.

Theorem C55_convert_to_rational_bezier : forall d (c cn : nurbs R d), nb_initialize c = Ok c -> Forall (fun w => 0 < w) (nb_weights c) ->
  nb_initialize (nb_set_periodic c false) = Ok cn ->
  valid_bspline (nb_pts c) (nb_knots c) -> knots_apart (/ IZR (10 ^ 16)) (nb_knots c) ->
  nth (bspline_degree (nb_pts c) (nb_knots c)) (nb_knots c) 0 < nth (bspline_degree (nb_pts c) (nb_knots c) + 1) (nb_knots c) 0 ->
  exists segs bounds, nb_convert_to_RationalBezier c = Ok (segs, bounds) /\
    length bounds = S (length segs) /\
    nth 0 bounds 0 = lower_of (nb_pts c) (nb_knots c) /\
    nth (length segs) bounds 0 = upper_of (nb_pts c) (nb_knots c) /\
    (forall u, In u bounds <-> (In u (nb_knots c) /\ lower_of (nb_pts c) (nb_knots c) <= u <= upper_of (nb_pts c) (nb_knots c))) /\
    (forall j, (j < length segs)%nat -> nth j bounds 0 < nth (j + 1) bounds 0) /\
    forall j, (j < length segs)%nat -> exists b, nth_error segs j = Some b /\
      rb_initialize b = Ok b /\ rb_periodic b = false /\ Forall (fun w => 0 < w) (rb_weights b) /\
      length (rb_pts b) = S (bspline_degree (nb_pts c) (nb_knots c)) /\
      forall x, (nth j bounds 0 <= x < nth (j + 1) bounds 0 \/
                 (x = nth (j + 1) bounds 0 /\ (S j = length segs \/
                    (count_occ Req_EM_T (nb_knots c) x <= bspline_degree (nb_pts c) (nb_knots c))%nat))) ->
        rb_evaluate b ((x - nth j bounds 0) / (nth (j + 1) bounds 0 - nth j bounds 0)) = nb_evaluate cn x.
Proof. exact @nurbs_convert. Qed.
Print Assumptions C55_convert_to_rational_bezier.

(** The example curve meets the hypotheses: insertion at 2 (not a knot) and at 1 (a simple knot). *)
Example C55_hyp : (forall u, In u (nb_knots ex_nb) -> u = 2 \/ / IZR (10 ^ 16) < Rabs (u - 2)) /\
  (1 + count_occ Req_EM_T (nb_knots ex_nb) 1%R <= bspline_degree (nb_pts ex_nb) (nb_knots ex_nb))%nat.
Proof.
  split.
  - intros u Hu. apply (In_IZR_apart ex_nb_zs 2%Z). exact Hu.
  - change (nb_knots ex_nb) with (map IZR ex_nb_zs). rewrite (count_IZR ex_nb_zs 1%Z). cbn. lia.
Qed.
Example C55_run : (do c <- exq_nb; do c' <- nb_insert_knot c (2#1)%Q 1; nb_evaluate c' (5 # 2)%Q) =
  (do c <- exq_nb; nb_evaluate c (5 # 2)%Q).
Proof. vm_compute. reflexivity. Qed.

(** C62: false; the conversions of conversion.h forget the periodic flag. *)
Theorem C62_bezier_to_rational_refuted : exists (c : bezier (vec R 1)) c', bz_periodic c = true /\ bezier_to_rbezier c = Ok c' /\
  rb_periodic c' = false /\ rb_evaluate c' 1 <> bz_evaluate c 1.
Proof. exact bezier_to_rational_loses. Qed.
Print Assumptions C62_bezier_to_rational_refuted.
Theorem C62_rational_to_bezier_refuted : exists (c0 c : rbezier R 1) c', rb_initialize c0 = Ok c /\ rb_periodic c = true /\
  rbezier_to_bezier c = Ok c' /\ bz_periodic c' = false /\ bz_evaluate c' 1 <> rb_evaluate c 1.
Proof. exact rational_to_bezier_loses. Qed.
Print Assumptions C62_rational_to_bezier_refuted.
Theorem C62_bspline_to_nurbs_refuted : exists (c : bspline R (vec R 1)) c', valid_bspline (bs_pts c) (bs_knots c) /\
  bs_periodic c = true /\ bspline_to_nurbs c = Ok c' /\ nb_periodic c' = false /\ nb_evaluate c' 1 <> bs_evaluate c 1.
Proof. exact bspline_to_rational_loses. Qed.
Print Assumptions C62_bspline_to_nurbs_refuted.
Theorem C62_nurbs_to_bspline_refuted : exists (c0 c : nurbs R 1) c', nb_initialize c0 = Ok c /\ valid_bspline (nb_pts c) (nb_knots c) /\
  nb_periodic c = true /\ nurbs_to_bspline c = Ok c' /\ bs_periodic c' = false /\ bs_evaluate c' 1 <> nb_evaluate c 1.
Proof. exact rational_to_bspline_loses. Qed.
Print Assumptions C62_nurbs_to_bspline_refuted.

(** C63: splitting and elevating rational Bezier curves. *)
Theorem C63_split : forall d (c cn : rbezier R d) t, rb_initialize c = Ok c -> rb_pts c <> [] ->
  Forall (fun w => 0 < w) (rb_weights c) ->
  rb_initialize (rb_set_periodic c false) = Ok cn -> 0 < t < 1 ->
  exists c1 c2, split_rbezier c t = Ok [c1; c2] /\ rb_initialize c1 = Ok c1 /\ rb_initialize c2 = Ok c2 /\
    rb_periodic c1 = false /\ rb_periodic c2 = false /\
    length (rb_pts c1) = length (rb_pts c) /\ length (rb_pts c2) = length (rb_pts c) /\
    Forall (fun w => 0 < w) (rb_weights c1) /\ Forall (fun w => 0 < w) (rb_weights c2) /\
    forall s, rb_evaluate c1 s = rb_evaluate cn (t * s) /\ rb_evaluate c2 s = rb_evaluate cn (t + (1 - t) * s).
Proof. exact @rational_split. Qed.
Print Assumptions C63_split.

Theorem C63_elevate : forall d (c : rbezier R d), rb_initialize c = Ok c -> rb_pts c <> [] ->
  Forall (fun w => 0 < w) (rb_weights c) ->
  exists c', rb_elevate_degree c = Ok c' /\ rb_initialize c' = Ok c' /\ rb_periodic c' = rb_periodic c /\
    length (rb_pts c') = S (length (rb_pts c)) /\ Forall (fun w => 0 < w) (rb_weights c') /\
    forall t, rb_evaluate c' t = rb_evaluate c t.
Proof. exact @rational_elevate. Qed.
Print Assumptions C63_elevate.

Example C63_hyp : Forall (fun w => 0 < w) (rb_weights ex_rb) /\ exists c, rb_initialize (rb_set_periodic ex_rb false) = Ok c.
Proof. split; [repeat constructor; lra|]. eexists. apply rb_init_ok. reflexivity. Qed.
Example C63_run : (do c <- exq_rb; do c' <- rb_elevate_degree c; rb_evaluate c' (1 # 3)%Q) = (do c <- exq_rb; rb_evaluate c (1 # 3)%Q) /\
  (do c <- exq_rb; do l <- split_rbezier c (1 # 3)%Q; do c1 <- get l 1; rb_evaluate c1 (1 # 2)%Q) = (do c <- exq_rb; rb_evaluate c (2 # 3)%Q).
Proof. vm_compute. split; reflexivity. Qed.

(** C64: periodic rational curves are periodic. *)
Theorem C64_rational_bezier : forall d (c : rbezier R d) t (m : Z), rb_initialize c = Ok c -> rb_periodic c = true ->
  rb_evaluate c (t + IZR m) = rb_evaluate c t /\
  rb_evaluate_derivative c (t + IZR m) = rb_evaluate_derivative c t /\
  rb_evaluate_2nd_derivative c (t + IZR m) = rb_evaluate_2nd_derivative c t.
Proof. exact @rational_periodic_shift. Qed.
Print Assumptions C64_rational_bezier.
Theorem C64_nurbs : forall d (c : nurbs R d) t (m : Z), nb_initialize c = Ok c -> nb_periodic c = true ->
  valid_bspline (nb_pts c) (nb_knots c) ->
  let a := lower_of (nb_pts c) (nb_knots c) in
  let b := upper_of (nb_pts c) (nb_knots c) in
  nb_evaluate c (t + IZR m * (b - a)) = nb_evaluate c t /\
  nb_evaluate_derivative c (t + IZR m * (b - a)) = nb_evaluate_derivative c t /\
  nb_evaluate_2nd_derivative c (t + IZR m * (b - a)) = nb_evaluate_2nd_derivative c t.
Proof. exact @nurbs_periodic_shift. Qed.
Print Assumptions C64_nurbs.
Example C64_hyp : exists c, rb_initialize (rb_set_periodic ex_rb true) = Ok c /\ rb_initialize c = Ok c /\ rb_periodic c = true.
Proof. eexists. split; [apply rb_init_ok; reflexivity|]. split; reflexivity. Qed.
