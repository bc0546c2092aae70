(** combine_Beziers on lists. *)
From Coq Require Import Reals Lra Lia ZArith List Permutation Bool.
From Verif Require Import Monad MonadFacts LoopFacts Scalar ScalarFacts Spec SpecFacts SpecGeom Polar ModelCurve CurveFacts ModelBezier
  BezierFacts BezierMath BezierThms BSplineMath ModelBSpline BSplineFacts BSplineThms BSplineThms2 BSplineThms3 BSplineInsert
  BSplineInsert2 BSplineInsert3 BSplineSplit BSplineConvert CurveThms RationalThms PrimitiveFacts EdistFacts BSplineRemove BSplineRemove2
  BSplineRemove3 BSplineRemove4 BSplineRemove5 BSplineRemove6 BSplineCombine.
Import ListNotations.
Local Open Scope R_scope.

Lemma bspline_combine d (segs : list (list (vec R d))) (bounds : list R) (q : nat) (dl : R) :
  segs <> [] -> (1 <= q)%nat -> (forall l, In l segs -> length l = S q) -> length bounds = S (length segs) ->
  (forall j, (j < length segs)%nat -> / IZR (10 ^ 16) < nth (j + 1) bounds 0 - nth j bounds 0) ->
  0 <= dl < / IZR (2 ^ 52) ->
  (forall j, (S j < length segs)%nat -> edist (nth 0 (nth (S j) segs []) p0) (nth q (nth j segs []) p0) <= dl) ->
  exists c, bs_combine_Beziers (map mk_bezier segs) bounds = Ok c /\ bs_periodic c = false /\
    valid_bspline (bs_pts c) (bs_knots c) /\ bspline_degree (bs_pts c) (bs_knots c) = q /\
    lower_of (bs_pts c) (bs_knots c) = nth 0 bounds 0 /\ upper_of (bs_pts c) (bs_knots c) = nth (length segs) bounds 0 /\
    knots_apart (/ IZR (10 ^ 16)) (bs_knots c) /\
    nth q (bs_knots c) 0 < nth (q + 1) (bs_knots c) 0 /\
    (forall u, In u (bs_knots c) -> In u bounds) /\
    (forall j, (0 < j < length segs)%nat -> (count_occ Req_EM_T (bs_knots c) (nth j bounds 0%R) <= q)%nat) /\
    count_occ Req_EM_T (bs_knots c) (nth 0 bounds 0) = S q /\
    count_occ Req_EM_T (bs_knots c) (nth (length segs) bounds 0) = S q /\
    forall j x, (j < length segs)%nat -> nth j bounds 0 <= x <= nth (j + 1) bounds 0 ->
      exists v v', bz_evaluate (mk_bezier (nth j segs [])) ((x - nth j bounds 0) / (nth (j + 1) bounds 0 - nth j bounds 0)) = Ok v /\
        bs_evaluate c x = Ok v' /\ edist v v' <= dl + INR (length segs - 1) * (INR q * / IZR (2 ^ 52)).
Proof.
  intros Hne Hq Hlen Hbl Hinc Hdl Hjoin.
  set (m := Z.of_nat (length segs)). assert (Hm : (1 <= m)%Z) by (destruct segs; [congruence|unfold m; simpl; lia]).
  set (Q := Z.of_nat q). set (b := fun i => nth (Z.to_nat i) bounds 0).
  set (B := fun i k => nth (Z.to_nat k) (nth (Z.to_nat i) segs []) (p0 : vec R d)).
  assert (Hsegs : zlen (map mk_bezier segs) = m) by (unfold zlen; rewrite map_length; reflexivity).
  assert (HB : forall i, (0 <= i < m)%Z -> exists s, get (map mk_bezier segs) i = Ok s /\ arr (bz_pts s) (Q + 1) (B i)).
  { intros i Hi. exists (mk_bezier (nth (Z.to_nat i) segs [])). split.
    - rewrite (get_nth _ _ (mk_bezier [])) by lia. f_equal. apply map_nth.
    - cbn [bz_pts mk_bezier]. replace (Q + 1)%Z with (zlen (nth (Z.to_nat i) segs [])); [apply arr_nth|].
      unfold zlen. rewrite Hlen by (apply nth_In; unfold m in *; lia). unfold Q. lia. }
  assert (Hbounds : arr bounds (m + 1) b).
  { replace (m + 1)%Z with (zlen bounds) by (unfold zlen, m; lia). apply arr_nth. }
  assert (Hi' : forall i, (0 <= i < m)%Z -> btol < b (i + 1)%Z - b i).
  { intros i Hi. rewrite btol_val. unfold b. replace (Z.to_nat (i + 1)) with (Z.to_nat i + 1)%nat by lia. apply Hinc. unfold m in *. lia. }
  assert (Hj' : forall i, (1 <= i < m)%Z -> edist (B i 0%Z) (B (i - 1)%Z Q) <= dl).
  { intros i Hi. unfold B, Q. rewrite Nat2Z.id. replace (Z.to_nat i) with (S (Z.to_nat (i - 1))) by lia. apply Hjoin. unfold m in *. lia. }
  assert (Hd' : 0 <= dl < seps) by (rewrite seps_R; exact Hdl).
  destruct (combine_start m Q b Hm ltac:(lia) Hi' B bounds Hbounds (map mk_bezier segs) dl HB Hj' Hd' Hsegs) as (pts & knots & HP & HK & E).
  set (c0 := mk_bspline pts knots) in *.
  assert (Hrep : bsrep c0 (cn m Q) Q (cU m Q b) (cP Q B)).
  { split; cbn [bs_pts bs_knots c0 mk_bspline]; unfold cn; [exact HP| |lia|nia].
    replace (m * Q + 1 + Q + 1)%Z with (m * Q + Q + 2)%Z by lia. exact HK. }
  destruct (combine_loop m Q b Hm ltac:(lia) Hi' B c0 Hrep bounds Hbounds eq_refl)
    as (c & Ec & I1 & I2 & I3 & I4 & I5 & I6 & I7 & I8 & I9 & I10 & I11).
  exists c. split; [rewrite E; exact Ec|]. split; [exact I1|]. split; [exact I2|].
  split; [rewrite I3; unfold Q; lia|].
  assert (Eb0 : b 0%Z = nth 0 bounds 0) by reflexivity.
  assert (Ebm : b m = nth (length segs) bounds 0) by (unfold b, m; f_equal; lia).
  split; [rewrite I4; exact Eb0|]. split; [rewrite I5; exact Ebm|]. split; [exact I6|].
  pose proof (cU_kval m Q b Hm ltac:(lia) Hi') as Hkv.
  destruct (rep_valid c0 _ _ _ _ Hrep Hkv) as (Hv0 & Hdeg0 & Hn0 & HU0 & _).
  pose proof (rep_nknots _ _ _ _ _ Hrep) as HL. unfold zlen in HL. pose proof btol_pos as Hbt.
  assert (Hb1 : forall i j, (0 <= i)%Z -> (i < j)%Z -> (j <= m)%Z -> b i < b j).
  { intros i j H1 H2 H3. pose proof (b_inc m b Hi' i j H1 H2 H3). lra. }
  assert (HEnd : count_occ Req_EM_T (bs_knots c0) (b 0%Z) = S q /\ count_occ Req_EM_T (bs_knots c0) (b m) = S q).
  { unfold cn in *. split.
    - rewrite (run_count (bs_knots c0) (b 0%Z) 0 q); [lia|exact (vb_sorted _ _ Hv0)|nia| |left; reflexivity|right].
      + intros i Hi. rewrite <- knot_of_nat, HU0 by nia. destruct i as [|i]; [apply (cU_0 m Q b Hm ltac:(lia))|apply (cU_at m Q b Hm ltac:(lia) 0); unfold Q; lia].
      + rewrite <- knot_of_nat, HU0 by nia. rewrite (cU_at m Q b Hm ltac:(lia) 1) by (unfold Q; lia). pose proof (Hb1 0%Z 1%Z ltac:(lia) ltac:(lia) ltac:(lia)). lra.
    - rewrite (run_count (bs_knots c0) (b m) (Z.to_nat (m * Q + 1)) (Z.to_nat (m * Q + Q + 1))); [nia|exact (vb_sorted _ _ Hv0)|nia| |right|left; nia].
      + intros i Hi. rewrite <- knot_of_nat, HU0 by nia. destruct (Z.eq_dec (Z.of_nat i) (m * Q + Q + 1)) as [->|]; [apply (cU_last m Q b Hm ltac:(lia))|apply (cU_at m Q b Hm ltac:(lia) m); nia].
      + rewrite <- knot_of_nat, HU0 by nia. replace (Z.of_nat (Z.to_nat (m * Q + 1) - 1)) with ((m - 1) * Q + Q)%Z by nia.
        rewrite (cU_at m Q b Hm ltac:(lia) (m - 1)) by nia. pose proof (Hb1 (m - 1)%Z m ltac:(lia) ltac:(lia) ltac:(lia)). lra. }
  assert (HIn : forall u, In u (bs_knots c) -> In u bounds).
  { intros u Hu. apply (count_occ_In Req_EM_T) in Hu. assert (Hu0 : In u (bs_knots c0)) by (apply (count_occ_In Req_EM_T); specialize (I9 u); lia).
    apply (In_nth _ _ 0) in Hu0. destruct Hu0 as (i & Hi & <-). rewrite <- knot_of_nat, HU0 by (unfold cn in *; nia).
    unfold cU, b. apply nth_In. unfold m. lia. }
  split.
  { (* the first interior knot of c is above the lower end, else b 0 occurs q + 2 times *)
    pose proof (vb_sorted _ _ I2) as Hso. pose proof (vb_domain _ _ I2) as Hdo. pose proof (vb_pts _ _ I2) as Hvp. pose proof (vb_len _ _ I2) as Hvl.
    rewrite I3 in *. unfold Q in *. rewrite Nat2Z.id in *. unfold lower_of in I4. rewrite I3 in I4.
    destruct (Rlt_le_dec (nth q (bs_knots c) 0) (nth (q + 1) (bs_knots c) 0)) as [|Hle]; [assumption|exfalso].
    assert (E0 : nth 0 (bs_knots c) 0 = b 0%Z).
    { assert (Hin0 : In (nth 0 (bs_knots c) 0) bounds) by (apply HIn, nth_In; lia).
      apply (In_nth _ _ 0) in Hin0. destruct Hin0 as (j & Hj & Ej).
      assert (nth 0 (bs_knots c) 0 <= nth q (bs_knots c) 0) by (apply Hso; lia). rewrite I4 in *.
      destruct (Nat.eq_dec j 0) as [->|]; [rewrite <- Ej; reflexivity|].
      pose proof (Hb1 0%Z (Z.of_nat j) ltac:(lia) ltac:(lia) ltac:(unfold m; lia)) as Hbj. unfold b at 2 in Hbj. rewrite Nat2Z.id in Hbj. lra. }
    assert (Hall : forall i, (i <= q + 1)%nat -> nth i (bs_knots c) 0 = b 0%Z).
    { intros i Hi. assert (nth 0 (bs_knots c) 0 <= nth i (bs_knots c) 0) by (apply Hso; unfold bspline_degree in *; lia).
      assert (nth i (bs_knots c) 0 <= nth (q + 1) (bs_knots c) 0) by (apply Hso; unfold bspline_degree in *; lia). lra. }
    pose proof (I10 (b 0%Z) ltac:(left; lra)) as Hc. rewrite (proj1 HEnd) in Hc.
    rewrite <- (firstn_skipn (q + 2) (bs_knots c)), count_occ_app in Hc.
    assert (Ef : firstn (q + 2) (bs_knots c) = repeat (b 0%Z) (q + 2)).
    { apply (nth_ext _ _ 0 0); [rewrite firstn_length, repeat_length; unfold bspline_degree in *; lia|].
      intros i Hi. rewrite firstn_length in Hi. rewrite nth_firstn_lt by lia. rewrite Hall by lia.
      rewrite nth_indep with (d' := b 0%Z) by (rewrite repeat_length; lia). now rewrite nth_repeat. }
    rewrite Ef, (count_occ_repeat_eq Req_EM_T) in Hc by reflexivity. lia. }
  split; [exact HIn|]. split; [|split; [|split]].
  - intros j Hj. specialize (I9 (nth j bounds 0)).
    pose proof (c0_count m Q b Hm ltac:(lia) Hi' B c0 Hrep (Z.of_nat j) ltac:(unfold m; lia)) as H. unfold b in H. rewrite Nat2Z.id in H. rewrite H in I9. unfold Q in I9. lia.
  - rewrite <- Eb0. rewrite I10 by (left; lra). apply HEnd.
  - rewrite <- Ebm. rewrite I10 by (right; lra). apply HEnd.
  - intros j x Hj Hx.
    destruct (c0_piece m Q b Hm ltac:(lia) Hi' B c0 Hrep eq_refl (map mk_bezier segs) dl HB Hj' Hd' (Z.of_nat j) x) as (s & v & v1 & Es & Ev & Ev1 & Hd1).
    + unfold m. lia.
    + unfold b. replace (Z.to_nat (Z.of_nat j + 1)) with (j + 1)%nat by lia. rewrite Nat2Z.id. exact Hx.
    + destruct (I11 x) as (v2 & v' & E2 & E' & Hd2).
      { rewrite Eb0, Ebm. assert (nth 0 bounds 0 <= nth j bounds 0 /\ nth (j + 1) bounds 0 <= nth (length segs) bounds 0) as [HA HC].
        { pose proof (b_mono m b Hi' 0 (Z.of_nat j) ltac:(lia) ltac:(lia) ltac:(unfold m; lia)) as HA.
          pose proof (b_mono m b Hi' (Z.of_nat j + 1) m ltac:(lia) ltac:(unfold m; lia) ltac:(unfold m; lia)) as HC.
          unfold b in HA, HC. replace (Z.to_nat (Z.of_nat j + 1)) with (j + 1)%nat in HC by lia. unfold m in HC. rewrite Nat2Z.id in *. split; assumption. }
        lra. }
      assert (v2 = v1) by congruence. subst v2. exists v, v'.
      assert (s = mk_bezier (nth j segs [])).
      { rewrite (get_nth _ _ (mk_bezier [])) in Es by (rewrite Hsegs; unfold m; lia). rewrite Nat2Z.id, map_nth in Es. congruence. }
      subst s. cbn [bz_pts mk_bezier] in Ev. unfold b in Ev. replace (Z.to_nat (Z.of_nat j + 1)) with (j + 1)%nat in Ev by lia. rewrite Nat2Z.id in Ev.
      split; [exact Ev|]. split; [exact E'|].
      apply Rle_trans with (edist v v1 + edist v1 v'); [apply edist_triangle|].
      rewrite <- seps_R. rewrite !INR_IZR_INZ. replace (Z.of_nat (length segs - 1)) with (cK m (m + 1)) by (unfold cK, m; lia). fold Q. lra.
Qed.
