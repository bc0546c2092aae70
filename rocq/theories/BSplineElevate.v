(** B-spline degree elevation and recombination of the pieces of a B-spline. *)
From Coq Require Import Reals Lra Lia ZArith List Permutation Bool.
From Verif Require Import Monad MonadFacts LoopFacts Scalar ScalarFacts Spec SpecFacts SpecGeom Polar ModelCurve CurveFacts ModelBezier
  BezierFacts BezierMath BezierThms BezierThms2 BSplineMath ModelBSpline BSplineFacts BSplineThms BSplineThms2 BSplineThms3 BSplineInsert
  BSplineInsert2 BSplineInsert3 BSplineSplit BSplineConvert CurveThms RationalThms PrimitiveFacts EdistFacts BSplineRemove BSplineRemove2
  BSplineRemove3 BSplineRemove4 BSplineRemove5 BSplineRemove6 BSplineCombine BSplineCombine2.
Import ListNotations.
Local Open Scope R_scope.

Lemma interior_in {P} (pts : list P) knots u : In u (interior_knots pts knots) <->
  In u knots /\ lower_of pts knots < u < upper_of pts knots.
Proof.
  unfold interior_knots. rewrite nodup_In, filter_In. destruct (Rlt_dec (lower_of pts knots) u), (Rlt_dec u (upper_of pts knots)); split; intros [H1 H2]; split; try assumption; try discriminate; try lra; reflexivity.
Qed.

Lemma bounds_length {P} (pts : list P) knots bounds m : length bounds = S m -> (1 <= m)%nat ->
  (forall j, (j < m)%nat -> nth j bounds 0 < nth (j + 1) bounds 0) ->
  nth 0 bounds 0 = lower_of pts knots -> nth m bounds 0 = upper_of pts knots ->
  (forall u, In u bounds <-> (In u knots /\ lower_of pts knots <= u <= upper_of pts knots)) ->
  length (interior_knots pts knots) = (m - 1)%nat.
Proof.
  intros Hl Hm Hinc E0 Em Hin.
  assert (Hlt : forall i j, (i < j)%nat -> (j <= m)%nat -> nth i bounds 0 < nth j bounds 0).
  { intros i j Hij Hj. replace j with (i + 1 + (j - i - 1))%nat in * by lia. induction (j - i - 1)%nat as [|k IH].
    - rewrite Nat.add_0_r in *. apply Hinc. lia.
    - apply Rlt_trans with (nth (i + 1 + k) bounds 0); [apply IH; lia|]. replace (i + 1 + S k)%nat with (i + 1 + k + 1)%nat by lia. apply Hinc. lia. }
  assert (HN : NoDup bounds).
  { apply (NoDup_nth bounds 0). intros i j Hi Hj E. destruct (Nat.lt_trichotomy i j) as [H|[H|H]]; [|exact H|]; pose proof (Hlt _ _ H ltac:(lia)); lra. }
  assert (Hlu : lower_of pts knots < upper_of pts knots) by (rewrite <- E0, <- Em; apply Hlt; lia).
  assert (HP : Permutation bounds (lower_of pts knots :: upper_of pts knots :: interior_knots pts knots)).
  { apply NoDup_Permutation; [exact HN| |].
    - constructor; [intros [H|H]; [lra|apply interior_in in H; lra]|]. constructor; [intros H; apply interior_in in H; lra|]. apply NoDup_nodup.
    - intros u. rewrite Hin. split.
      + intros [H1 H2]. destruct (Req_dec u (lower_of pts knots)) as [->|]; [now left|]. destruct (Req_dec u (upper_of pts knots)) as [->|]; [right; now left|].
        right. right. apply interior_in. split; [exact H1|lra].
      + intros [<-|[<-|H]].
        * apply Hin. rewrite <- E0. apply nth_In. lia.
        * apply Hin. rewrite <- Em. apply nth_In. lia.
        * apply interior_in in H. split; [apply H|lra]. }
  apply Permutation_length in HP. simpl in HP. lia.
Qed.

Lemma nth_error_map_bz {d} (segs : list (bezier (vec R d))) :
  (forall j, (j < length segs)%nat -> exists l, nth_error segs j = Some (mk_bezier l)) -> segs = map mk_bezier (map bz_pts segs).
Proof.
  induction segs as [|s segs IH]; intros H; [reflexivity|]. simpl. f_equal.
  - destruct (H 0%nat ltac:(simpl; lia)) as (l & E). cbn in E. injection E as ->. reflexivity.
  - apply IH. intros j Hj. apply (H (S j)). simpl. lia.
Qed.

Lemma elevate_all d (ls : list (list (vec R d))) q : (forall l, In l ls -> length l = S q) ->
  exists ls', mapM bz_elevate_degree (map mk_bezier ls) = Ok (map mk_bezier ls') /\ length ls' = length ls /\
    forall j, (j < length ls)%nat -> length (nth j ls' []) = S (S q) /\
      forall t, bz_evaluate (mk_bezier (nth j ls' [])) t = bz_evaluate (mk_bezier (nth j ls [])) t.
Proof.
  induction ls as [|l ls IH]; intros H.
  - exists []. split; [reflexivity|]. split; [reflexivity|]. intros j Hj. simpl in Hj. lia.
  - destruct IH as (ls' & E & Hl & Hj); [intros l0 Hl0; apply H; now right|].
    destruct (bezier_elevate_eval d 1 l) as (l' & E' & Hl' & Hv); [specialize (H l (or_introl eq_refl)); destruct l; [discriminate H|discriminate]|].
    assert (E1 : bz_elevate_degree (mk_bezier l) = Ok (mk_bezier l')).
    { cbn [repeat_res] in E'. destruct (bz_elevate_degree (mk_bezier l)); exact E'. }
    exists (l' :: ls'). split; [|split].
    + cbn [map mapM]. rewrite E1, bind_Ok, E, bind_Ok. reflexivity.
    + simpl. congruence.
    + intros j Hj'. destruct j as [|j]; [|apply Hj; simpl in Hj'; lia]. cbn [nth]. split; [|exact Hv].
      rewrite Hl', (H l (or_introl eq_refl)). lia.
Qed.

(** Evaluation of a periodic curve is evaluation of the open one at the unwrapped parameter. *)
Lemma bs_eval_unwrap {P} {V : PointOps R P} (c : bspline R P) x u : bs_unwrap c x = Ok u -> bs_evaluate c x = bs_evaluate (nonperiodic c) u.
Proof. intros E. unfold bs_evaluate. rewrite E. rewrite bs_unwrap_off by reflexivity. reflexivity. Qed.

(** Pieces cut from a curve, changed in a way that keeps their values, and put together again. *)
Lemma recombine d (c : bspline R (vec R d)) (f : list (list (vec R d)) -> res (list (bezier (vec R d)))) (q : nat) :
  valid_bspline (bs_pts c) (bs_knots c) -> knots_apart (/ IZR (10 ^ 16)) (bs_knots c) ->
  nth (bspline_degree (bs_pts c) (bs_knots c)) (bs_knots c) 0
    < nth (bspline_degree (bs_pts c) (bs_knots c) + 1) (bs_knots c) 0 ->
  (forall u, In u (interior_knots (bs_pts c) (bs_knots c)) ->
     (count_occ Req_EM_T (bs_knots c) u <= bspline_degree (bs_pts c) (bs_knots c))%nat) ->
  (1 <= q)%nat ->
  (forall ls, (forall l, In l ls -> length l = S (bspline_degree (bs_pts c) (bs_knots c))) ->
    exists ls', f ls = Ok (map mk_bezier ls') /\ length ls' = length ls /\
      forall j, (j < length ls)%nat -> length (nth j ls' []) = S q /\
        forall t, bz_evaluate (mk_bezier (nth j ls' [])) t = bz_evaluate (mk_bezier (nth j ls [])) t) ->
  exists ls bounds bzs c', bs_convert_to_Bezier c = Ok (map mk_bezier ls, bounds) /\ f ls = Ok bzs /\
    bs_combine_Beziers bzs bounds = Ok c' /\ bs_periodic c' = false /\
    valid_bspline (bs_pts c') (bs_knots c') /\ bspline_degree (bs_pts c') (bs_knots c') = q /\
    lower_of (bs_pts c') (bs_knots c') = lower_of (bs_pts c) (bs_knots c) /\
    upper_of (bs_pts c') (bs_knots c') = upper_of (bs_pts c) (bs_knots c) /\
    knots_apart (/ IZR (10 ^ 16)) (bs_knots c') /\ nth q (bs_knots c') 0 < nth (q + 1) (bs_knots c') 0 /\
    (forall u, In u (bs_knots c') -> In u (bs_knots c)) /\
    (forall u, In u (interior_knots (bs_pts c) (bs_knots c)) -> (count_occ Req_EM_T (bs_knots c') u <= q)%nat) /\
    (forall x, lower_of (bs_pts c) (bs_knots c) <= x <= upper_of (bs_pts c) (bs_knots c) ->
      exists v v', bs_evaluate (nonperiodic c) x = Ok v /\ bs_evaluate (nonperiodic c') x = Ok v' /\
        edist v v' <= INR (length (interior_knots (bs_pts c) (bs_knots c))) * (INR q * / IZR (2 ^ 52))).
Proof.
  intros Hv Ha Hs Hmul Hq Hf.
  destruct (bspline_convert_full d c Hv Ha Hs) as (segs & bounds & E & Hbl & E0 & Em & Hin & Hinc & Hseg).
  set (p := bspline_degree (bs_pts c) (bs_knots c)) in *.
  pose proof (vb_domain _ _ Hv) as Hdom. fold p in Hdom. 
  assert (Hlu : lower_of (bs_pts c) (bs_knots c) < upper_of (bs_pts c) (bs_knots c)) by exact Hdom.
  assert (Hm : (1 <= length segs)%nat).
  { destruct segs as [|s segs]; [|simpl; lia]. simpl in *. lra. }
  assert (Esegs : segs = map mk_bezier (map bz_pts segs)).
  { apply nth_error_map_bz. intros j Hj. destruct (Hseg j Hj) as (l & El & _). eauto. }
  set (ls := map bz_pts segs) in *.
  assert (Hlen : length ls = length segs) by (unfold ls; apply map_length).
  assert (Hpiece : forall j, (j < length ls)%nat -> length (nth j ls []) = S p /\
    forall x, (nth j bounds 0 <= x < nth (j + 1) bounds 0 \/ (x = nth (j + 1) bounds 0 /\ (S j = length segs \/ (count_occ Req_EM_T (bs_knots c) x <= p)%nat))) ->
      bz_evaluate (mk_bezier (nth j ls [])) ((x - nth j bounds 0) / (nth (j + 1) bounds 0 - nth j bounds 0)) = bs_evaluate (nonperiodic c) x).
  { intros j Hj. destruct (Hseg j ltac:(lia)) as (l & El & _ & Hll & Hval).
    assert (nth j ls [] = l).
    { unfold ls. apply nth_error_nth with (d := []). rewrite nth_error_map, El. reflexivity. }
    rewrite H. split; [exact Hll|exact Hval]. }
  destruct (Hf ls) as (ls' & Ef & Hl' & Hj').
  { intros l Hl. apply (In_nth _ _ []) in Hl. destruct Hl as (j & Hj & <-). apply Hpiece. exact Hj. }
  assert (Hlt : forall i j, (i < j)%nat -> (j <= length segs)%nat -> nth i bounds 0 < nth j bounds 0).
  { intros i j Hij Hj. replace j with (i + 1 + (j - i - 1))%nat in * by lia. induction (j - i - 1)%nat as [|k IH].
    - rewrite Nat.add_0_r in *. apply Hinc. lia.
    - apply Rlt_trans with (nth (i + 1 + k) bounds 0); [apply IH; lia|]. replace (i + 1 + S k)%nat with (i + 1 + k + 1)%nat by lia. apply Hinc. lia. }
  assert (Hint : forall j, (0 < j < length segs)%nat -> In (nth j bounds 0) (interior_knots (bs_pts c) (bs_knots c))).
  { intros j Hj. apply interior_in. pose proof (Hlt 0%nat j ltac:(lia) ltac:(lia)). pose proof (Hlt j (length segs) ltac:(lia) ltac:(lia)).
    split; [|lra]. apply Hin. apply nth_In. lia. }
  assert (Hval : forall j x, (j < length segs)%nat -> nth j bounds 0 <= x <= nth (j + 1) bounds 0 ->
     bz_evaluate (mk_bezier (nth j ls' [])) ((x - nth j bounds 0) / (nth (j + 1) bounds 0 - nth j bounds 0)) = bs_evaluate (nonperiodic c) x).
  { intros j x Hj Hx. rewrite (proj2 (Hj' j ltac:(lia))). apply (proj2 (Hpiece j ltac:(lia))).
    destruct (Rlt_le_dec x (nth (j + 1) bounds 0)); [left; lra|right]. split; [lra|]. destruct (Nat.eq_dec (S j) (length segs)); [now left|right].
    replace x with (nth (j + 1) bounds 0) by lra. apply Hmul, Hint. lia. }
  destruct (bspline_combine d ls' bounds q 0) as (c' & Ec & Hper & Hv' & Hdeg & EL & EU & Ha' & Hs' & Hkn & Hcnt & _ & _ & Hev).
  - intros ->. simpl in Hl'. lia.
  - exact Hq.
  - intros l Hl. apply (In_nth _ _ []) in Hl. destruct Hl as (j & Hj & <-). apply Hj'. lia.
  - lia.
  - intros j Hj. assert (Hin1 : In (nth j bounds 0) (bs_knots c)) by (apply Hin, nth_In; lia).
    assert (Hin2 : In (nth (j + 1) bounds 0) (bs_knots c)) by (apply Hin, nth_In; lia). pose proof (Hinc j ltac:(lia)) as H12.
    apply (In_nth _ _ 0) in Hin1. apply (In_nth _ _ 0) in Hin2. destruct Hin1 as (i1 & Hi1 & E1), Hin2 as (i2 & Hi2 & E2). rewrite <- E1, <- E2 in *.
    apply Ha; [|exact H12]. split; [|lia]. destruct (le_lt_dec i1 i2); [assumption|exfalso].
    pose proof (vb_sorted _ _ Hv i2 i1 ltac:(lia)). lra.
  - split; [lra|]. apply Rinv_0_lt_compat. apply IZR_lt. reflexivity.
  - intros j Hj. right. rewrite Hl', Hlen in Hj.
    assert (Hne : forall k, (k < length segs)%nat -> nth k ls' [] <> []).
    { intros k Hk E1. destruct (Hj' k ltac:(lia)) as [H1 _]. rewrite E1 in H1. discriminate. }
    destruct (bezier_endpoints d (nth (S j) ls' []) (Hne (S j) ltac:(lia))) as [A1 _].
    destruct (bezier_endpoints d (nth j ls' []) (Hne j ltac:(lia))) as [_ A2].
    pose proof (Hval (S j) (nth (S j) bounds 0) ltac:(lia) ltac:(pose proof (Hinc (S j) ltac:(lia)); lra)) as V1.
    pose proof (Hval j (nth (S j) bounds 0) ltac:(lia) ltac:(replace (j + 1)%nat with (S j) by lia; pose proof (Hlt j (S j) ltac:(lia) ltac:(lia)); lra)) as V2.
    replace ((nth (S j) bounds 0 - nth (S j) bounds 0) / (nth (S j + 1) bounds 0 - nth (S j) bounds 0)) with 0 in V1 by (unfold Rdiv; ring).
    replace (j + 1)%nat with (S j) in V2 by lia.
    replace ((nth (S j) bounds 0 - nth j bounds 0) / (nth (S j) bounds 0 - nth j bounds 0)) with 1 in V2
      by (pose proof (Hlt j (S j) ltac:(lia) ltac:(lia)); field; lra).
    assert (Eq : hd p0 (nth (S j) ls' []) = last (nth j ls' []) p0) by congruence.
    replace (nth 0 (nth (S j) ls' []) p0) with (hd p0 (nth (S j) ls' [])) by (destruct (nth (S j) ls' []); reflexivity).
    replace (nth q (nth j ls' []) p0) with (last (nth j ls' []) p0).
    + rewrite Eq. apply edist_refl.
    + assert (Hll : length (nth j ls' []) = S q) by (apply Hj'; lia). clear -Hll. revert q Hll. induction (nth j ls' []) as [|a l IH]; intros q Hll; [discriminate|].
      destruct l as [|a' l]; [simpl in Hll; replace q with 0%nat by lia; reflexivity|]. destruct q as [|q]; [simpl in Hll; lia|].
      cbn [last nth] in *. apply IH. simpl in *. lia.
  - rewrite Hl', Hlen in *. exists ls, bounds, (map mk_bezier ls'), c'.
    split; [rewrite <- Esegs; exact E|]. split; [exact Ef|]. split; [exact Ec|]. split; [exact Hper|]. split; [exact Hv'|].
    split; [exact Hdeg|]. split; [congruence|]. split; [congruence|]. split; [exact Ha'|]. split; [exact Hs'|]. split; [|split].
    + intros u Hu. apply Hin, Hkn, Hu.
    + intros u Hu. assert (Hub : In u bounds) by (apply Hin; apply interior_in in Hu; split; [apply Hu|lra]).
      apply (In_nth _ _ 0) in Hub. destruct Hub as (j & Hj & <-). apply interior_in in Hu. apply Hcnt.
      split; [destruct j; [lra|lia]|]. destruct (Nat.eq_dec j (length segs)) as [->|]; [lra|lia].
    + intros x Hx. rewrite (bounds_length (bs_pts c) (bs_knots c) bounds (length segs) Hbl Hm Hinc E0 Em Hin).
      assert (Hjx : exists j, (j < length segs)%nat /\ nth j bounds 0 <= x <= nth (j + 1) bounds 0).
      { rewrite <- E0, <- Em in Hx. clear -Hx Hm. induction (length segs) as [|k IH]; [lia|].
        destruct (Rle_lt_dec (nth k bounds 0) x) as [H|H].
        - exists k. split; [lia|]. replace (k + 1)%nat with (S k) by lia. lra.
        - destruct k as [|k]; [lra|]. destruct IH as (j & Hj & Hxj); [lia|lra|]. exists j. split; [lia|exact Hxj]. }
      destruct Hjx as (j & Hj & Hxj). destruct (Hev j x Hj Hxj) as (v & v' & Ev & Ev' & Hd).
      exists v, v'. split; [rewrite <- (Hval j x Hj Hxj); exact Ev|]. split; [|lra].
      destruct c' as [a1 a2 a3]. cbn in Hper |- *. unfold nonperiodic, mk_bspline. cbn. subst a3. exact Ev'.
Qed.
