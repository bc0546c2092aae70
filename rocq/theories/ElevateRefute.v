(** Counterexamples for recombination and degree elevation of B-splines: runs on rationals carried over to the reals. *)
From Coq Require Import Reals QArith Qreals Lra Lia ZArith List Bool.
From Verif Require Import Monad MonadFacts Scalar ScalarFacts Spec SpecGeom ModelCurve ModelBezier ModelBSpline ModelRational Transfer TransferBSpline
  TransferCombine BezierThms BSplineRefute ExampleFacts BSplineCombine2 BSplineElevate.
Import ListNotations.
Local Open Scope R_scope.

Lemma Q2R_pow n : Q2R (1 # (2 ^ n)%positive) = / IZR (2 ^ Zpos n).
Proof. unfold Q2R. cbn [Qnum Qden]. rewrite Rmult_1_l, <- Pos2Z.inj_pow. reflexivity. Qed.

(** A tent of height [h] over 0, 1, 2. *)
Definition tent_pts (h : R) : list (vec R 1) := [r1 0; r1 h; r1 0].
Definition tent_knots : list R := map IZR [0; 0; 1; 2; 2]%Z.
Definition tent_q (h : Q) : bspline Q (vec Q 1) := mk_bspline [q1 (0#1); q1 h; q1 (0#1)]%Q [0#1;0#1;1#1;2#1;2#1]%Q.

Lemma tent_eq h : bsR (tent_q h) = mk_bspline (tent_pts (Q2R h)) tent_knots.
Proof. unfold bsR, tent_q, mk_bspline, tent_pts, tent_knots, q1, r1. cbn [bs_pts bs_knots bs_periodic map vR fst snd]. now rewrite !Q2R_Z. Qed.

Lemma tent_at1 : bs_evaluate (mk_bspline (tent_pts (/ IZR (2 ^ 51))) tent_knots) 1 = Ok (r1 (/ IZR (2 ^ 51))).
Proof.
  rewrite <- (Q2R_pow 51), <- tent_eq, <- (Q2R_Z 1).
  rewrite (run_evaluate 1 (tent_q (1 # 2 ^ 51)) (1#1) (q1 (1 # (2 ^ 51)%positive)) eq_refl); [reflexivity|vm_compute; reflexivity].
Qed.

Lemma tent_elevate : exists c', bs_elevate_degree bz_elevate_degree (mk_bspline (tent_pts (/ IZR (2 ^ 51))) tent_knots) = Ok c' /\
  bs_evaluate c' 1 = Ok (r1 (/ IZR (2 ^ 52))).
Proof.
  rewrite <- (Q2R_pow 51), <- tent_eq, <- (Q2R_Z 1), <- (Q2R_pow 52).
  destruct (@bs_elevate_degree Q (vec Q 1) Qn_ops (vecn_ops 1) (@bz_elevate_degree Q (vec Q 1) Qn_ops (vecn_ops 1)) (tent_q (1 # 2 ^ 51)))
    as [c'| | |] eqn:E; [|vm_compute in E; discriminate..].
  exists (bsR c'). split; [now apply run_elevate|].
  rewrite (run_evaluate 1 c' (1#1) (q1 (1 # (2 ^ 52)%positive))); [reflexivity| |];
    vm_compute in E; injection E as <-; vm_compute; reflexivity.
Qed.

Lemma tent_combine : exists c', bs_combine_Beziers [mk_bezier [r1 0; r1 (/ IZR (2 ^ 52))]; mk_bezier [r1 (/ IZR (2 ^ 52)); r1 0]] [0; 1; 2] = Ok c' /\
  bs_evaluate c' 1 = Ok (r1 0).
Proof.
  assert (EL : [mk_bezier [r1 0; r1 (/ IZR (2 ^ 52))]; mk_bezier [r1 (/ IZR (2 ^ 52)); r1 0]]
    = map bzR [mk_bezier [q1 (0#1); q1 (1 # 2 ^ 52)]; mk_bezier [q1 (1 # 2 ^ 52); q1 (0#1)]]).
  { rewrite <- (Q2R_pow 52). unfold bzR, mk_bezier, q1, r1. cbn [bz_pts bz_periodic map vR fst snd]. now rewrite !Q2R_Z. }
  assert (EB : [0; 1; 2] = map Q2R [0#1; 1#1; 2#1]) by (cbn [map]; now rewrite !Q2R_Z).
  rewrite EL, EB.
  destruct (@bs_combine_Beziers Q (vec Q 1) Qn_ops (vecn_ops 1) [mk_bezier [q1 (0#1); q1 (1 # 2 ^ 52)]; mk_bezier [q1 (1 # 2 ^ 52); q1 (0#1)]]
     [0#1; 1#1; 2#1]) as [c'| | |] eqn:E; [|vm_compute in E; discriminate..].
  exists (bsR c'). split; [now apply run_combine|]. rewrite <- (Q2R_Z 1), <- (Q2R_Z 0).
  rewrite (run_evaluate 1 c' (1#1) (q1 (0#1))); [reflexivity| |]; vm_compute in E; injection E as <-; vm_compute; reflexivity.
Qed.

Lemma tent_valid h : valid_bspline (tent_pts h) tent_knots.
Proof. apply valid_of_Z. reflexivity. Qed.

Lemma tent_interior h : interior_knots (tent_pts h) tent_knots = [1].
Proof.
  unfold interior_knots, lower_of, upper_of, bspline_degree, tent_pts, tent_knots. cbn [length map Nat.sub nth filter].
  destruct (Rlt_dec 0 0); [lra|]. destruct (Rlt_dec 0 1); [|lra]. destruct (Rlt_dec 1 2); [|lra]. destruct (Rlt_dec 0 2); [|lra].
  destruct (Rlt_dec 2 2); [lra|]. reflexivity.
Qed.

(** A tent meets every condition of the theorem on elevation, yet its top moves down by half. *)
Lemma elevate_not_exact : exists (pts : list (vec R 1)) (knots : list R),
  valid_bspline pts knots /\ knots_apart (/ IZR (10 ^ 16)) knots /\
  nth (bspline_degree pts knots) knots 0 < nth (bspline_degree pts knots + 1) knots 0 /\
  (forall u, In u (interior_knots pts knots) -> (count_occ Req_EM_T knots u <= bspline_degree pts knots)%nat) /\
  (1 <= bspline_degree pts knots)%nat /\
  exists c' x v v', lower_of pts knots <= x <= upper_of pts knots /\
    bs_elevate_degree bz_elevate_degree (mk_bspline pts knots) = Ok c' /\
    bs_evaluate (mk_bspline pts knots) x = Ok v /\ bs_evaluate c' x = Ok v' /\ v <> v'.
Proof.
  exists (tent_pts (/ IZR (2 ^ 51))), tent_knots. split; [apply tent_valid|]. split; [apply apart_of_Z|].
  split; [cbn; lra|]. split.
  { rewrite tent_interior. intros u [<-|[]]. unfold tent_knots. rewrite (count_IZR _ 1). cbn. lia. }
  split; [cbn; lia|]. destruct tent_elevate as (c' & E1 & E2).
  exists c', 1, (r1 (/ IZR (2 ^ 51))), (r1 (/ IZR (2 ^ 52))). split; [unfold lower_of, upper_of; cbn; lra|].
  split; [exact E1|]. split; [exact tent_at1|]. split; [exact E2|]. intros H. injection H as H.
  apply (f_equal Rinv) in H. rewrite !Rinv_inv in H. apply eq_IZR in H. discriminate.
Qed.

Lemma combine_not_exact : exists (s1 s2 : list (vec R 1)) c' v v',
  length s1 = 2%nat /\ length s2 = 2%nat /\ nth 1 s1 p0 = nth 0 s2 p0 /\
  bs_combine_Beziers [mk_bezier s1; mk_bezier s2] [0; 1; 2] = Ok c' /\
  bz_evaluate (mk_bezier s1) 1 = Ok v /\ bs_evaluate c' 1 = Ok v' /\ v <> v'.
Proof.
  destruct tent_combine as (c' & E1 & E2).
  exists [r1 0; r1 (/ IZR (2 ^ 52))], [r1 (/ IZR (2 ^ 52)); r1 0], c', (r1 (/ IZR (2 ^ 52))), (r1 0).
  split; [reflexivity|]. split; [reflexivity|]. split; [reflexivity|]. split; [exact E1|]. split; [|split; [exact E2|]].
  - apply (bezier_endpoints 1 [r1 0; r1 (/ IZR (2 ^ 52))]). discriminate.
  - intros H. injection H as H. assert (0 < / IZR (2 ^ 52)) by (apply Rinv_0_lt_compat, IZR_lt; reflexivity). lra.
Qed.

(** A rational curve with positive weights whose elevated weights are 1, 0, 0, 1. *)
Definition zw_pts : list (vec R 1) := map r1 (map IZR [0; 1; 2; 3; 1]%Z).
Definition zw_ws : list R := [1; 1/4; 1/4; 1/4; 1].
Definition zw_knots : list R := map IZR [0; 0; 0; 1; 1; 2; 2; 2]%Z.
Definition zw_hom : bspline Q (vec Q 2) :=
  mk_bspline [(0#1, (1#1, tt)); (1#4, (1#4, tt)); (2#4, (1#4, tt)); (3#4, (1#4, tt)); (1#1, (1#1, tt))] [0#1;0#1;0#1;1#1;1#1;2#1;2#1;2#1].

Lemma zw_elevate : exists c, mk_nurbs zw_pts zw_knots zw_ws = Ok c /\ nb_elevate_degree c = NonFinite.
Proof.
  eexists. split; [reflexivity|]. unfold nb_elevate_degree. 
  match goal with |- context [nb_validate ?c] => set (cc := c) end.
  assert (E0 : nb_validate cc = Ok tt) by reflexivity. rewrite E0, bind_Ok.
  assert (Eh : nb_hom cc = bsR zw_hom).
  { unfold bsR, zw_hom, mk_bspline. cbn [bs_pts bs_knots bs_periodic map vR fst snd]. rewrite !Q2R_Z.
    unfold cc, zw_pts, zw_knots, zw_ws, r1. cbn. repeat (f_equal; try lra); unfold Q2R; cbn; lra. }
  rewrite Eh.
  destruct (@bs_elevate_degree Q (vec Q 2) Qn_ops (vecn_ops 2) (@bz_elevate_degree Q (vec Q 2) Qn_ops (vecn_ops 2)) zw_hom)
    as [c'| | |] eqn:E; [|vm_compute in E; discriminate..].
  rewrite (run_elevate _ _ _ E), bind_Ok. vm_compute in E. injection E as <-.
  unfold nb_set_homogeneous, bsR. cbn [bs_pts map]. unfold dehomogenize. cbn [mapM].
  assert (E1 : h_point (vR ((0%Q, (1%Q, tt)) : vec Q 2)) = Ok (r1 0)).
  { unfold h_point, pdivs. cbn [vlast vhead vR fst snd]. change 1%Q with (1#1). change 0%Q with (0#1). rewrite !Q2R_Z.
    replace (seq_ 1 s0) with false by (symmetry; apply Reqb_false; cbn; lra). unfold r1. cbn. do 2 f_equal. lra. }
  assert (E2 : h_point (vR ((1#3, (0%Q, tt)) : vec Q 2)) = NonFinite).
  { unfold h_point, pdivs. cbn [vlast vhead vR fst snd]. change 0%Q with (0#1). rewrite !Q2R_Z.
    replace (seq_ 0 s0) with true by (symmetry; apply Reqb_true; reflexivity). reflexivity. }
  rewrite E1, E2. reflexivity.
Qed.

Lemma nurbs_elevate_fails : exists (pts : list (vec R 1)) (knots ws : list R) c,
  valid_bspline pts knots /\ knots_apart (/ IZR (10 ^ 16)) knots /\
  nth (bspline_degree pts knots) knots 0 < nth (bspline_degree pts knots + 1) knots 0 /\
  Forall (fun w => 0 < w) ws /\ mk_nurbs pts knots ws = Ok c /\ nb_initialize c = Ok c /\ nb_elevate_degree c = NonFinite.
Proof.
  destruct zw_elevate as (c & E1 & E2). exists zw_pts, zw_knots, zw_ws, c.
  split; [apply valid_of_Z; reflexivity|]. split; [apply apart_of_Z|]. split; [cbn; lra|].
  split; [unfold zw_ws; repeat constructor; lra|]. split; [exact E1|]. split; [|exact E2].
  injection E1 as <-. reflexivity.
Qed.
