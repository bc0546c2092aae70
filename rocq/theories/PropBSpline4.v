(** Property theorems: Bezier to B-spline conversion, recombination of pieces (C22), degree elevation of
    B-spline and NURBS curves (C54).  Statements only; the proofs are in BSplineCombine*.v, BSplineElevate*.v,
    NurbsElevate.v and ElevateRefute.v.  The example curve [ex_c] is that of PropBSpline.v. *)
From Coq Require Import Reals Lra Lia ZArith QArith List.
From Verif Require Import Monad Scalar Spec SpecGeom ModelCurve ModelBezier ModelBSpline ModelRational BSplineCombine BSplineCombine2
  BSplineElevate BSplineElevate2 NurbsElevate ElevateRefute BSplineRefute ExampleFacts PropBSpline.
Import ListNotations.
Local Open Scope R_scope.

(** C22, conversion of a Bezier curve that is not periodic. *)
Theorem C22_convert_to_bspline : forall d (c : bezier (vec R d)) (n : nat), length (bz_pts c) = S n -> bz_periodic c = false ->
  exists b, bezier_to_bspline c = Ok b /\ bs_periodic b = false /\ bs_pts b = bz_pts c /\
    valid_bspline (bs_pts b) (bs_knots b) /\ bspline_degree (bs_pts b) (bs_knots b) = n /\
    lower_of (bs_pts b) (bs_knots b) = 0 /\ upper_of (bs_pts b) (bs_knots b) = 1 /\
    forall t, 0 <= t <= 1 -> bs_evaluate b t = bz_evaluate c t.
Proof. exact bezier_to_bspline_ok. Qed.
Print Assumptions C22_convert_to_bspline.
Example C22_convert_hyp : length (bz_pts (mk_bezier ex_pts)) = 6%nat /\ bz_periodic (mk_bezier ex_pts) = false.
Proof. split; reflexivity. Qed.
Example C22_convert_run : (do b <- bezier_to_bspline (mk_bezier (bs_pts exq_c)); bs_evaluate b (1 # 3)%Q) = bz_evaluate (mk_bezier (bs_pts exq_c)) (1 # 3)%Q
  /\ bz_evaluate (mk_bezier (bs_pts exq_c)) (1 # 3)%Q = Ok ((547 # 243), ((401 # 243), tt))%Q.
Proof. vm_compute. split; reflexivity. Qed.

(** C22, conversion of a periodic Bezier curve: the flag is dropped; the values agree on [0,1), and at 1 the
    B-spline is at the last control point, the Bezier curve back at the first. *)
Theorem C22_convert_periodic : forall d (c : bezier (vec R d)), bz_pts c <> [] -> bz_periodic c = true ->
  exists b, bezier_to_bspline c = Ok b /\ bs_periodic b = false /\ (forall t, 0 <= t < 1 -> bs_evaluate b t = bz_evaluate c t) /\
    bs_evaluate b 1 = Ok (last (bz_pts c) p0) /\ bz_evaluate c 1 = Ok (hd p0 (bz_pts c)).
Proof. exact bezier_to_bspline_periodic. Qed.
Print Assumptions C22_convert_periodic.
Example C22_convert_periodic_run : (do b <- bezier_to_bspline {| bz_pts := bs_pts exq_c; bz_periodic := true |}; bs_evaluate b 1%Q) = Ok (7, (1, tt))%Q
  /\ bz_evaluate {| bz_pts := bs_pts exq_c; bz_periodic := true |} 1%Q = Ok (0, (0, tt))%Q.
Proof. vm_compute. split; reflexivity. Qed.

(** C22, combination: m pieces of the same degree q >= 1, given by their control points, over increasing bounds
    with gaps above the 1e-16 of the evaluation; consecutive pieces join within [dl], which is below the machine epsilon.
    The result is a valid curve of degree q over the same domain.  At every parameter it is within
    [dl + (m - 1) q 2^-52] of the piece there: combine_Beziers removes interior knots with tolerance 2^-52. *)
Theorem C22_combine_partial : forall d (segs : list (list (vec R d))) (bounds : list R) (q : nat) (dl : R),
  segs <> [] -> (1 <= q)%nat -> (forall l, In l segs -> length l = S q) -> length bounds = S (length segs) ->
  (forall j, (j < length segs)%nat -> / IZR (10 ^ 16) < nth (j + 1) bounds 0 - nth j bounds 0) ->
  0 <= dl < / IZR (2 ^ 52) ->
  (forall j, (S j < length segs)%nat -> edist (nth 0 (nth (S j) segs []) p0) (nth q (nth j segs []) p0) <= dl) ->
  exists c, bs_combine_Beziers (map mk_bezier segs) bounds = Ok c /\ bs_periodic c = false /\
    valid_bspline (bs_pts c) (bs_knots c) /\ bspline_degree (bs_pts c) (bs_knots c) = q /\
    lower_of (bs_pts c) (bs_knots c) = nth 0 bounds 0 /\ upper_of (bs_pts c) (bs_knots c) = nth (length segs) bounds 0 /\
    knots_apart (/ IZR (10 ^ 16)) (bs_knots c) /\
    nth q (bs_knots c) 0 < nth (q + 1) (bs_knots c) 0 /\
    (forall u, In u (bs_knots c) -> In u bounds) /\
    (forall j, (0 < j < length segs)%nat -> (count_occ Req_EM_T (bs_knots c) (nth j bounds 0%R) <= q)%nat) /\
    count_occ Req_EM_T (bs_knots c) (nth 0 bounds 0) = S q /\
    count_occ Req_EM_T (bs_knots c) (nth (length segs) bounds 0) = S q /\
    forall j x, (j < length segs)%nat -> nth j bounds 0 <= x <= nth (j + 1) bounds 0 ->
      exists v v', bz_evaluate (mk_bezier (nth j segs [])) ((x - nth j bounds 0) / (nth (j + 1) bounds 0 - nth j bounds 0)) = Ok v /\
        bs_evaluate c x = Ok v' /\ edist v v' <= dl + INR (length segs - 1) * (INR q * / IZR (2 ^ 52)).
Proof. exact bspline_combine. Qed.
Print Assumptions C22_combine_partial.
(** Three quadratic pieces; over the rationals the joint at 1 is smooth and one of its two knots goes. *)
Definition ex_segs : list (list (vec R 2)) :=
  [[(0, (0, tt)); (1, (2, tt)); (2, (2, tt))]; [(2, (2, tt)); (3, (2, tt)); (4, (1, tt))]; [(4, (1, tt)); (5, (5, tt)); (0, (1, tt))]].
Example C22_combine_hyp : (forall l, In l ex_segs -> length l = 3%nat) /\ length [0; 1; 2; 4] = 4%nat /\
  (forall j, (j < 3)%nat -> / IZR (10 ^ 16) < nth (j + 1) [0; 1; 2; 4] 0 - nth j [0; 1; 2; 4] 0) /\
  (forall j, (S j < 3)%nat -> edist (nth 0 (nth (S j) ex_segs []) p0) (nth 2 (nth j ex_segs []) p0) <= 0).
Proof.
  split; [intros l [<-|[<-|[<-|[]]]]; reflexivity|]. split; [reflexivity|].
  destruct (inv_IZR_lt1 (10 ^ 16)) as [_ H]; [reflexivity|]. split.
  - intros [|[|[|j]]] Hj; cbn [nth Nat.add]; lra || lia.
  - intros [|[|j]] Hj; try lia; cbn [nth ex_segs]; unfold edist; cbn; match goal with |- sqrt ?a <= 0 => replace a with 0 by ring end; rewrite sqrt_0; lra.
Qed.
Definition exq_segs : list (list (vec Q 2)) :=
  [[(0, (0, tt)); (1, (2, tt)); (2, (2, tt))]; [(2, (2, tt)); (3, (2, tt)); (4, (1, tt))]; [(4, (1, tt)); (5, (5, tt)); (0, (1, tt))]]%Q.
Example C22_combine_run : match bs_combine_Beziers (map mk_bezier exq_segs) [0; 1; 2; 4]%Q with
  | Ok c => map Qred (bs_knots c) | _ => [] end = [0; 0; 0; 1; 2; 2; 4; 4; 4]%Q.
Proof. vm_compute. reflexivity. Qed.

(** C22 with equality of the values is false: a tent of height 2^-52 is flattened. *)
Theorem C22_combine_refuted : exists (s1 s2 : list (vec R 1)) c' v v',
  length s1 = 2%nat /\ length s2 = 2%nat /\ nth 1 s1 p0 = nth 0 s2 p0 /\
  bs_combine_Beziers [mk_bezier s1; mk_bezier s2] [0; 1; 2] = Ok c' /\
  bz_evaluate (mk_bezier s1) 1 = Ok v /\ bs_evaluate c' 1 = Ok v' /\ v <> v'.
Proof. exact combine_not_exact. Qed.
Print Assumptions C22_combine_refuted.

(** C22, the pieces of a B-spline put together again: same degree and domain, values within k p 2^-52, where k is the
    number of distinct knots inside the domain.  Periodic curves: compared with the curve without the flag, on one period. *)
Theorem C22_recombine_partial : forall d (c : bspline R (vec R d)),
  valid_bspline (bs_pts c) (bs_knots c) -> knots_apart (/ IZR (10 ^ 16)) (bs_knots c) ->
  nth (bspline_degree (bs_pts c) (bs_knots c)) (bs_knots c) 0
    < nth (bspline_degree (bs_pts c) (bs_knots c) + 1) (bs_knots c) 0 ->
  (forall u, In u (interior_knots (bs_pts c) (bs_knots c)) ->
     (count_occ Req_EM_T (bs_knots c) u <= bspline_degree (bs_pts c) (bs_knots c))%nat) ->
  (1 <= bspline_degree (bs_pts c) (bs_knots c))%nat ->
  exists beziers bounds c', bs_convert_to_Bezier c = Ok (beziers, bounds) /\ bs_combine_Beziers beziers bounds = Ok c' /\
    bs_periodic c' = false /\ valid_bspline (bs_pts c') (bs_knots c') /\
    bspline_degree (bs_pts c') (bs_knots c') = bspline_degree (bs_pts c) (bs_knots c) /\
    lower_of (bs_pts c') (bs_knots c') = lower_of (bs_pts c) (bs_knots c) /\
    upper_of (bs_pts c') (bs_knots c') = upper_of (bs_pts c) (bs_knots c) /\
    (forall u, In u (bs_knots c') -> In u (bs_knots c)) /\
    (forall x, lower_of (bs_pts c) (bs_knots c) <= x <= upper_of (bs_pts c) (bs_knots c) ->
      exists v v', bs_evaluate (mk_bspline (bs_pts c) (bs_knots c)) x = Ok v /\ bs_evaluate c' x = Ok v' /\
        edist v v' <= INR (length (interior_knots (bs_pts c) (bs_knots c)))
                      * (INR (bspline_degree (bs_pts c) (bs_knots c)) * / IZR (2 ^ 52))).
Proof. exact bspline_recombine. Qed.
Print Assumptions C22_recombine_partial.

Lemma ex_interior : interior_knots (bs_pts ex_c) (bs_knots ex_c) = [1; 3].
Proof.
  unfold interior_knots. destruct ex_domain as [-> ->]. unfold ex_c, ex_zs. cbn [bs_knots mk_bspline map filter].
  repeat (destruct (Rlt_dec _ _); try (exfalso; lra)). cbn [nodup In].
  repeat match goal with |- context [in_dec Req_EM_T ?a ?l] => destruct (in_dec Req_EM_T a l) as [Hi|Hi];
    [try (exfalso; simpl in Hi; lra)|try (exfalso; apply Hi; simpl; tauto)]; clear Hi end. reflexivity.
Qed.
Example C22_recombine_hyp :
  nth (bspline_degree (bs_pts ex_c) (bs_knots ex_c)) (bs_knots ex_c) 0
    < nth (bspline_degree (bs_pts ex_c) (bs_knots ex_c) + 1) (bs_knots ex_c) 0 /\
  (forall u, In u (interior_knots (bs_pts ex_c) (bs_knots ex_c)) ->
     (count_occ Req_EM_T (bs_knots ex_c) u <= bspline_degree (bs_pts ex_c) (bs_knots ex_c))%nat) /\
  (1 <= bspline_degree (bs_pts ex_c) (bs_knots ex_c))%nat.
Proof.
  rewrite ex_interior, ex_degree. split; [cbn; lra|]. split; [|lia]. unfold ex_c. cbn [bs_knots mk_bspline].
  intros u [<-|[<-|[]]]; [rewrite (count_IZR _ 1)|rewrite (count_IZR _ 3)]; cbn; lia.
Qed.
Example C22_recombine_run : match (do '(l, b) <- bs_convert_to_Bezier exq_c; bs_combine_Beziers l b) with
  | Ok c => map Qred (bs_knots c) | _ => [] end = [0; 0; 0; 1; 3; 3; 4; 4; 4]%Q.
Proof. vm_compute. reflexivity. Qed.

(** C54, B-splines of degree p >= 1: degree p+1, same domain, same flag, values within k (p+1) 2^-52 for k distinct
    knots inside the domain (so exactly the same for a single piece); periodic curves at all parameters. *)
Theorem C54_bspline_elevate_partial : forall d (c : bspline R (vec R d)),
  valid_bspline (bs_pts c) (bs_knots c) -> knots_apart (/ IZR (10 ^ 16)) (bs_knots c) ->
  nth (bspline_degree (bs_pts c) (bs_knots c)) (bs_knots c) 0
    < nth (bspline_degree (bs_pts c) (bs_knots c) + 1) (bs_knots c) 0 ->
  (forall u, In u (interior_knots (bs_pts c) (bs_knots c)) ->
     (count_occ Req_EM_T (bs_knots c) u <= bspline_degree (bs_pts c) (bs_knots c))%nat) ->
  (1 <= bspline_degree (bs_pts c) (bs_knots c))%nat ->
  exists c', bs_elevate_degree bz_elevate_degree c = Ok c' /\
    bs_periodic c' = bs_periodic c /\ valid_bspline (bs_pts c') (bs_knots c') /\
    bspline_degree (bs_pts c') (bs_knots c') = S (bspline_degree (bs_pts c) (bs_knots c)) /\
    lower_of (bs_pts c') (bs_knots c') = lower_of (bs_pts c) (bs_knots c) /\
    upper_of (bs_pts c') (bs_knots c') = upper_of (bs_pts c) (bs_knots c) /\
    (forall u, In u (bs_knots c') -> In u (bs_knots c)) /\
    (forall x, (bs_periodic c = true \/ lower_of (bs_pts c) (bs_knots c) <= x <= upper_of (bs_pts c) (bs_knots c)) ->
      exists v v', bs_evaluate c x = Ok v /\ bs_evaluate c' x = Ok v' /\
        edist v v' <= INR (length (interior_knots (bs_pts c) (bs_knots c)))
                      * (INR (S (bspline_degree (bs_pts c) (bs_knots c))) * / IZR (2 ^ 52))).
Proof. exact bspline_elevate. Qed.
Print Assumptions C54_bspline_elevate_partial.
(** The hypotheses hold for [ex_c]: [ex_valid], [ex_apart] and [C22_recombine_hyp]. *)
Example C54_bspline_run : match bs_elevate_degree bz_elevate_degree exq_c with
  | Ok c => (map Qred (bs_knots c), bs_degree c, bs_evaluate c (5 # 2)%Q) | _ => ([], 0%Z, Undef) end
  = ([0; 0; 0; 0; 1; 1; 3; 3; 3; 4; 4; 4; 4]%Q, 3%Z, bs_evaluate exq_c (5 # 2)%Q).
Proof. vm_compute. reflexivity. Qed.

(** C54 with equality of the values is false: the top of a tent of height 2^-51 comes down by half. *)
Theorem C54_bspline_elevate_refuted : exists (pts : list (vec R 1)) (knots : list R),
  valid_bspline pts knots /\ knots_apart (/ IZR (10 ^ 16)) knots /\
  nth (bspline_degree pts knots) knots 0 < nth (bspline_degree pts knots + 1) knots 0 /\
  (forall u, In u (interior_knots pts knots) -> (count_occ Req_EM_T knots u <= bspline_degree pts knots)%nat) /\
  (1 <= bspline_degree pts knots)%nat /\
  exists c' x v v', lower_of pts knots <= x <= upper_of pts knots /\
    bs_elevate_degree bz_elevate_degree (mk_bspline pts knots) = Ok c' /\
    bs_evaluate (mk_bspline pts knots) x = Ok v /\ bs_evaluate c' x = Ok v' /\ v <> v'.
Proof. exact elevate_not_exact. Qed.
Print Assumptions C54_bspline_elevate_refuted.

(** C54, degree 0 is rejected. *)
Theorem C54_degree_0 : forall d (c : bspline R (vec R d)) (elevate : bezier (vec R d) -> res (bezier (vec R d))),
  length (bs_knots c) = S (length (bs_pts c)) -> bs_elevate_degree elevate c = Throw invalid_setting_error.
Proof. exact elevate_degree_0. Qed.
Print Assumptions C54_degree_0.
Example C54_degree_0_run : bs_elevate_degree bz_elevate_degree (mk_bspline [q1 3; q1 5] [0; 1; 2]%Q) = Throw invalid_setting_error.
Proof. vm_compute. reflexivity. Qed.

(** C54, NURBS: when elevation succeeds the degree, domain and flag are right and, if every weight is at least
    [wmin > e], the curve moves by at most [e (1 + |a|) / (wmin - e)] at a point [a], with e = k (p+1) 2^-52. *)
Theorem C54_nurbs_elevate_partial : forall d (c c' : nurbs R d), nb_initialize c = Ok c ->
  valid_bspline (nb_pts c) (nb_knots c) -> knots_apart (/ IZR (10 ^ 16)) (nb_knots c) ->
  nth (bspline_degree (nb_pts c) (nb_knots c)) (nb_knots c) 0
    < nth (bspline_degree (nb_pts c) (nb_knots c) + 1) (nb_knots c) 0 ->
  (forall u, In u (interior_knots (nb_pts c) (nb_knots c)) ->
     (count_occ Req_EM_T (nb_knots c) u <= bspline_degree (nb_pts c) (nb_knots c))%nat) ->
  (1 <= bspline_degree (nb_pts c) (nb_knots c))%nat ->
  nb_elevate_degree c = Ok c' ->
  nb_initialize c' = Ok c' /\ nb_periodic c' = nb_periodic c /\ valid_bspline (nb_pts c') (nb_knots c') /\
  bspline_degree (nb_pts c') (nb_knots c') = S (bspline_degree (nb_pts c) (nb_knots c)) /\
  lower_of (nb_pts c') (nb_knots c') = lower_of (nb_pts c) (nb_knots c) /\
  upper_of (nb_pts c') (nb_knots c') = upper_of (nb_pts c) (nb_knots c) /\
  forall wmin x, let e := INR (length (interior_knots (nb_pts c) (nb_knots c)))
                          * (INR (S (bspline_degree (nb_pts c) (nb_knots c))) * / IZR (2 ^ 52)) in
    e < wmin -> Forall (fun w => wmin <= w) (nb_weights c) ->
    (nb_periodic c = true \/ lower_of (nb_pts c) (nb_knots c) <= x <= upper_of (nb_pts c) (nb_knots c)) ->
    exists a a', nb_evaluate c x = Ok a /\ nb_evaluate c' x = Ok a' /\ edist a a' <= e * (1 + edist a p0) / (wmin - e).
Proof. exact nurbs_elevate. Qed.
Print Assumptions C54_nurbs_elevate_partial.
(** Over the rationals: [ex_c] with weights; elevation succeeds and the points agree. *)
Example C54_nurbs_run : (do c <- mk_nurbs (bs_pts exq_c) (bs_knots exq_c) [1; 2; 3; 1; 1; 2]%Q; do c' <- nb_elevate_degree c;
    do a <- nb_evaluate c (5 # 2)%Q; do a' <- nb_evaluate c' (5 # 2)%Q;
    Ok (bs_degree (nb_hom c'), Qeq_bool (fst a) (fst a'), Qeq_bool (fst (snd a)) (fst (snd a')))) = Ok (3%Z, true, true).
Proof. vm_compute. reflexivity. Qed.

(** C54, NURBS: elevation can fail on a curve with positive weights 1, 1/4, 1/4, 1/4, 1.  The elevated weights are
    1, 0, 0, 1 and the new control points are obtained by dividing by them. *)
Theorem C54_nurbs_elevate_refuted : exists (pts : list (vec R 1)) (knots ws : list R) c,
  valid_bspline pts knots /\ knots_apart (/ IZR (10 ^ 16)) knots /\
  nth (bspline_degree pts knots) knots 0 < nth (bspline_degree pts knots + 1) knots 0 /\
  Forall (fun w => 0 < w) ws /\ mk_nurbs pts knots ws = Ok c /\ nb_initialize c = Ok c /\ nb_elevate_degree c = NonFinite.
Proof. exact nurbs_elevate_fails. Qed.
Print Assumptions C54_nurbs_elevate_refuted.
