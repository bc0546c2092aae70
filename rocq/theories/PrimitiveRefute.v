(** Concrete circles, ellipses and quadrics on which inverse evaluation or the periodic flags fail. *)
From Coq Require Import Reals Lra Lia ZArith Psatz Bool.
From Verif Require Import Monad MonadFacts Scalar ScalarFacts Spec SpecFacts SpecGeom SpecPatch SpecPrimitive ModelCurve ModelPatchBase ModelPrimitive CurveThms LineThms IntersectThms TrigFacts PrimitiveFacts CircleThms EllipseThms QuadricThms.
Local Open Scope R_scope.
Notation pt x y := ((x%R, (y%R, tt)) : vec R 2).
Notation pt3 x y z := ((x%R, (y%R, (z%R, tt))) : vec R 3).

Lemma inner2 (x y x' y' : R) : inner (pt x y) (pt x' y') = x * x' + y * y'.
Proof. unfold inner, rsum. cbn. ring. Qed.
Lemma inner3 (x y z x' y' z' : R) : inner (pt3 x y z) (pt3 x' y' z') = x * x' + y * y' + z * z'.
Proof. unfold inner, rsum. cbn. ring. Qed.
Lemma std2 : orthonormal2 (pt 1 0) (pt 0 1).
Proof. unfold orthonormal2. rewrite !inner2. lra. Qed.
Lemma std3 : orthonormal3 (pt3 1 0 0) (pt3 0 1 0) (pt3 0 0 1).
Proof. unfold orthonormal3, orthonormal2. rewrite !inner3. lra. Qed.
Lemma at2_std x y : at2 (pt 0 0) (pt 1 0) (pt 0 1) x y = pt x y.
Proof. vext. destruct i as [|[|i]]; cbn; try lia; ring. Qed.
Lemma at3_std x y z : at3 (pt3 0 0 0) (pt3 1 0 0) (pt3 0 1 0) (pt3 0 0 1) x y z = pt3 x y z.
Proof. vext. destruct i as [|[|[|i]]]; cbn; try lia; ring. Qed.

(** ** Circle on [-2 pi, -pi] *)
Definition circle_below : circle R (vec R 2) :=
  {| ci_center := pt 0 0; ci_x := pt 1 0; ci_y := pt 0 1; ci_radius := 1; ci_lower := - (2 * PI); ci_upper := - PI; ci_periodic := false |}.
Lemma circle_below_pt t : ci_pt circle_below t = pt (cos t) (sin t).
Proof. unfold ci_pt, circle_below; cbn [ci_center ci_x ci_y ci_radius]. rewrite !Rmult_1_l. apply at2_std. Qed.
Lemma half_turn lo hi : hi - lo = PI -> winding_flag lo hi = Ok false.
Proof.
  intros E. destruct (winding_spec lo hi) as ([|] & Eb & H); [|exact Eb]. exfalso. destruct (proj1 H eq_refl) as [k Hk]. rewrite E in Hk.
  pose proof prim_tol_bound as [_ Ht]. assert (HP : 1 <= PI) by (pose proof PI2_1; lra). replace (PI - 2 * PI * IZR k) with (PI * IZR (1 - 2 * k)) in Hk by (rewrite minus_IZR, mult_IZR; ring).
  rewrite Rabs_mult, (Rabs_right PI), <- abs_IZR in Hk by lra. assert (H1 : 1 <= IZR (Z.abs (1 - 2 * k))) by (apply (IZR_le 1); lia). nra.
Qed.
Lemma frame2_std : frame2_ok (pt 1 0) (pt 0 1) = true.
Proof.
  unfold frame2_ok, sqnorm. rewrite !pdot_inner, !inner2. cbn [ssub s1 slt R_ops]. rewrite !sabs_R. pose proof prim_tol_bound as [Ht _].
  replace (1 * 1 + 0 * 0 - 1) with 0 by ring. replace (0 * 0 + 1 * 1 - 1) with 0 by ring. replace (1 * 0 + 0 * 1) with 0 by ring. rewrite Rabs_R0, Rltb_true by exact Ht. reflexivity.
Qed.
Lemma circle_refuted : exists (c : circle R (vec R 2)) s q, ci_initialize c = Ok c /\ 0 < ci_radius c /\ orthonormal2 (ci_x c) (ci_y c) /\
  ci_lower c <= s <= ci_upper c /\ ci_evaluate c s = Ok q /\
  forall fuel, exists t q', ci_inverse_evaluate fuel c q = Ok t /\ ci_evaluate c t = Ok q' /\ q' <> q.
Proof.
  pose proof PI_RGT_0 as HP. exists circle_below, (- (3 * (PI / 2))), (pt 0 1). repeat split.
  - unfold ci_initialize. change (ci_x circle_below) with (pt 1 0). change (ci_y circle_below) with (pt 0 1). rewrite frame2_std. cbn [assert_ bind sle R_ops ci_lower ci_upper circle_below].
    rewrite Rleb_true by lra. cbn [assert_ bind]. rewrite half_turn by ring. reflexivity.
  - cbn. lra.
  - apply std2.
  - apply std2.
  - apply std2.
  - cbn [ci_lower circle_below]. lra.
  - cbn [ci_upper circle_below]. lra.
  - rewrite ci_eval, circle_below_pt. rewrite cos_neg, sin_neg.
    replace (3 * (PI / 2)) with (PI / 2 + PI) by field. rewrite neg_cos, neg_sin, cos_PI2, sin_PI2. f_equal. f_equal; [ring|]. f_equal. ring.
  - intros fuel. exists (- PI), (pt (-1) 0). split; [|split].
    + unfold ci_inverse_evaluate, ci_approximate_inverse_evaluate. change (ci_lower circle_below) with (- (2 * PI)). change (ci_upper circle_below) with (- PI).
      cbn [sle R_ops]. rewrite Rleb_true by lra. cbn [assert_ bind]. rewrite !along_pdot_l.
      assert (Ax : along (ci_center circle_below) (ci_x circle_below) (pt 0 1) = 0) by (unfold along, inner, rsum; cbn; ring).
      assert (Ay : along (ci_center circle_below) (ci_y circle_below) (pt 0 1) = 1) by (unfold along, inner, rsum; cbn; ring).
      rewrite Ax, Ay.
      assert (Ea : satan2 1 0 = PI / 2). { cbn [satan2 R_trig]. unfold Ratan2. destruct (Rlt_dec 0 0); [lra|]. destruct (Rlt_dec 0 1); [reflexivity|lra]. }
      rewrite Ea.
      assert (Er : raise fuel (PI / 2) (- (2 * PI)) = Ok (PI / 2)). { destruct fuel; cbn [raise slt R_ops]; rewrite Rltb_false by lra; reflexivity. }
      rewrite Er, bind_Ok. unfold end_or. cbn [slt R_ops]. rewrite Rltb_true by lra.
      rewrite !ci_eval, !bind_Ok, !circle_below_pt. rewrite !cos_neg, !sin_neg, cos_PI, sin_PI, cos_2PI, sin_2PI. unfold sqnorm. rewrite !pdot_inner. unfold inner, rsum. cbn.
      rewrite Rltb_false by lra. reflexivity.
    + rewrite ci_eval, circle_below_pt, cos_neg, sin_neg, cos_PI, sin_PI. f_equal. f_equal. f_equal. ring.
    + intros E. apply (f_equal fst) in E. cbn in E. lra.
Qed.

(** ** Ellipse on [-pi/2, pi/2] *)
Definition ellipse_right : ellipse R (vec R 2) :=
  {| el_center := pt 0 0; el_x := pt 1 0; el_y := pt 0 1; el_major := 2; el_minor := 1; el_lower := - (PI / 2); el_upper := PI / 2; el_periodic := false |}.
Lemma ellipse_right_pt t : el_pt ellipse_right t = pt (2 * cos t) (sin t).
Proof. unfold el_pt, ellipse_right; cbn [el_center el_x el_y el_major el_minor]. rewrite !Rmult_1_l. apply at2_std. Qed.
Lemma ellipse_refuted : exists (c : ellipse R (vec R 2)) s q, el_initialize c = Ok c /\ orthonormal2 (el_x c) (el_y c) /\
  el_lower c <= s <= el_upper c /\ el_evaluate c s = Ok q /\
  forall fuel, exists t q', el_inverse_evaluate fuel c q = Ok t /\ el_evaluate c t = Ok q' /\ q' <> q.
Proof.
  pose proof PI_RGT_0 as HP. assert (H4 : 0 < sin (PI / 4) /\ 0 < cos (PI / 4)) by (split; [apply sin_gt_0|apply cos_gt_0]; lra).
  exists ellipse_right, (- (PI / 4)), (pt (2 * cos (PI / 4)) (- sin (PI / 4))).
  pose proof prim_tol_bound as [Ht Ht']. repeat split.
  - unfold el_initialize. cbn [el_major el_minor el_x el_y el_lower el_upper ellipse_right s0 slt sle R_ops]. rewrite pdot_inner, inner2.
    replace (1 * 0 + 0 * 1) with 0 by ring. rewrite sabs_R, Rabs_R0. rewrite !Rltb_true, !Rleb_true by lra. cbn [assert_ bind]. rewrite half_turn by field. reflexivity.
  - apply std2.
  - apply std2.
  - apply std2.
  - cbn [el_lower ellipse_right]. lra.
  - cbn [el_upper ellipse_right]. lra.
  - rewrite el_eval, ellipse_right_pt, cos_neg, sin_neg. reflexivity.
  - intros fuel. exists (- (PI / 2)), (pt 0 (-1)).
    assert (Ep : pt (2 * cos (PI / 4)) (- sin (PI / 4)) = el_pt ellipse_right (- (PI / 4))) by (rewrite ellipse_right_pt, cos_neg, sin_neg; reflexivity).
    assert (Ax : along (el_center ellipse_right) (el_x ellipse_right) (pt (2 * cos (PI / 4)) (- sin (PI / 4))) = 2 * cos (PI / 4)).
    { unfold along, inner, rsum. cbn. rewrite ?cos_0, ?sin_0. ring. }
    assert (Ay : along (el_center ellipse_right) (el_y ellipse_right) (pt (2 * cos (PI / 4)) (- sin (PI / 4))) = - sin (PI / 4)).
    { unfold along, inner, rsum. cbn. rewrite ?cos_0, ?sin_0. ring. }
    split; [|split].
    + unfold el_inverse_evaluate. rewrite el_inverse_frame; [|apply std2|cbn [el_lower el_upper ellipse_right]; lra].
      destruct (el_quadrant_along 2 ellipse_right (pt (2 * cos (PI / 4)) (- sin (PI / 4))) std2) as [Qx Qy]. rewrite Ax in Qx. rewrite Ay in Qy.
      rewrite Rabs_right in Qx by lra. rewrite Rabs_left in Qy by lra. rewrite Ropp_involutive in Qy.
      rewrite el_loop_fixed; [| |lia].
      2:{ apply el_step_fixed; [apply std2|cbn [el_minor el_major ellipse_right]; lra|cbn [el_minor el_major ellipse_right]; lra|lra|exact Qx|].
          rewrite Qy. cbn [el_minor ellipse_right]. ring. }
      rewrite bind_Ok, Ax, Ay. unfold el_unflip. destruct (Rlt_dec (2 * cos (PI / 4)) 0); [lra|]. destruct (Rlt_dec (- sin (PI / 4)) 0); [|lra].
      assert (Er : raise fuel (2 * PI - PI / 4) (el_lower ellipse_right) = Ok (2 * PI - PI / 4)).
      { cbn [el_lower ellipse_right]. destruct fuel; cbn [raise slt R_ops]; rewrite Rltb_false by lra; reflexivity. }
      rewrite Er, bind_Ok. unfold end_or. change (el_lower ellipse_right) with (- (PI / 2)). change (el_upper ellipse_right) with (PI / 2). cbn [slt R_ops]. rewrite Rltb_true by lra.
      rewrite !el_eval, !bind_Ok, !ellipse_right_pt. rewrite !cos_neg, !sin_neg, cos_PI2, sin_PI2. unfold sqnorm. rewrite !pdot_inner. unfold inner, rsum. cbn.
      rewrite Rltb_true by lra. reflexivity.
    + rewrite el_eval, ellipse_right_pt, cos_neg, sin_neg, cos_PI2, sin_PI2. f_equal. f_equal. ring.
    + intros E. apply (f_equal fst) in E. cbn in E. lra.
Qed.

(** ** Large ellipse *)
Lemma ellipse_large_refuted : exists c : ellipse R (vec R 2), el_initialize c = Ok c /\ orthonormal2 (el_x c) (el_y c) /\
  forall fuel s q, el_lower c <= s <= el_upper c -> el_evaluate c s = Ok q -> el_inverse_evaluate fuel c q = Undef.
Proof.
  pose proof PI_RGT_0 as HP. pose proof prim_tol_bound as [Ht Ht'].
  exists {| el_center := pt 0 0; el_x := pt 1 0; el_y := pt 0 1; el_major := 100000000; el_minor := 100000000; el_lower := 0; el_upper := PI; el_periodic := false |}.
  split; [|split].
  - unfold el_initialize. cbn [el_major el_minor el_x el_y el_lower el_upper s0 slt sle R_ops]. rewrite pdot_inner, inner2.
    replace (1 * 0 + 0 * 1) with 0 by ring. rewrite sabs_R, Rabs_R0. rewrite !Rltb_true, !Rleb_true by lra. cbn [assert_ bind]. rewrite half_turn by ring. reflexivity.
  - apply std2.
  - intros fuel s q _ _. unfold el_inverse_evaluate. apply ellipse_large.
    + apply std2.
    + cbn. lra.
    + reflexivity.
    + cbn [el_major]. rewrite prim_tol_R. replace (100000000 ^ 2) with (IZR (10 ^ 16)) by (simpl; ring). unfold Rdiv.
      apply (Rmult_le_reg_l (IZR (10 ^ 16))); [apply IZR_lt; reflexivity|]. rewrite Rinv_r by (apply not_0_IZR; discriminate).
      apply (Rmult_le_reg_l (IZR (2 ^ 52))); [apply IZR_lt; reflexivity|]. rewrite Rmult_1_r.
      replace (IZR (2 ^ 52) * (IZR (10 ^ 16) * (10 * / IZR (2 ^ 52)))) with (IZR (10 ^ 16) * 10) by (field; apply not_0_IZR; discriminate).
      rewrite <- mult_IZR. apply IZR_le. vm_compute. discriminate.
    + cbn [el_lower el_upper]. lra.
Qed.

(** ** Plane with rows that are not orthogonal *)
Lemma plane_refuted : exists (c : plane R (vec R 2)) u v q, pl_initialize c = Ok c /\
  b_ulo (pl_bounds c) <= u <= b_uhi (pl_bounds c) /\ b_vlo (pl_bounds c) <= v <= b_vhi (pl_bounds c) /\ pl_evaluate c u v = Ok q /\
  exists u' v' q', pl_inverse_evaluate c q (b_ulo (pl_bounds c)) (b_uhi (pl_bounds c)) (b_vlo (pl_bounds c)) (b_vhi (pl_bounds c)) = Ok ((u', v'), true) /\
    pl_evaluate c u' v' = Ok q' /\ q' <> q.
Proof.
  pose proof prim_tol_bound as [Ht Ht'].
  exists {| pl_location := pt 0 0; pl_x := pt 1 0; pl_y := pt 1 1; pl_bounds := {| b_ulo := 0; b_uhi := 1; b_vlo := 0; b_vhi := 1 |}; pl_periodic_u := false; pl_periodic_v := false |}, 0, 1, (pt 1 1).
  cbn [pl_bounds b_ulo b_uhi b_vlo b_vhi]. split; [|split; [lra|split; [lra|split]]].
  - unfold pl_initialize, sqnorm. cbn [pl_x pl_y pl_bounds]. rewrite !pdot_inner, !inner2. cbn [slt R_ops]. rewrite !Rltb_true by lra. unfold bounds_ok. cbn [sle R_ops b_ulo b_uhi b_vlo b_vhi].
    rewrite !Rleb_true by lra. reflexivity.
  - rewrite pl_eval. unfold pl_pt. f_equal. cbn [pl_location pl_x pl_y]. vext. destruct i as [|[|i]]; cbn; try lia; ring.
  - exists 1, 1, (pt 2 1). split; [|split].
    + unfold pl_inverse_evaluate, sqnorm, ddiv. cbn [pl_location pl_x pl_y]. rewrite !pdot_inner, !inner_sub_l, !inner2. cbn [seq_ s0 sdiv R_ops]. rewrite !Reqb_false by lra. cbn [bind].
      replace ((1 * 1 + 1 * 0 - (0 * 1 + 0 * 0)) / (1 * 1 + 0 * 0)) with 1 by field. replace ((1 * 1 + 1 * 1 - (0 * 1 + 0 * 1)) / (1 * 1 + 1 * 1)) with 1 by field.
      destruct (clamp_spec 0 1 1 ltac:(lra)) as (_ & -> & _); [reflexivity|lra].
    + rewrite pl_eval. unfold pl_pt. f_equal. cbn [pl_location pl_x pl_y]. vext. destruct i as [|[|i]]; cbn; try lia; ring.
    + intros E. apply (f_equal fst) in E. cbn in E. lra.
Qed.

(** ** Rotational patches with the standard frame *)
Definition std_surf (r a ulo uhi vlo vhi : R) (pu pv : bool) : rotsurf R (vec R 3) :=
  {| rv_location := pt3 0 0 0; rv_x := pt3 1 0 0; rv_y := pt3 0 1 0; rv_z := pt3 0 0 1; rv_r := r; rv_a := a;
     rv_bounds := {| b_ulo := ulo; b_uhi := uhi; b_vlo := vlo; b_vhi := vhi |}; rv_periodic_u := pu; rv_periodic_v := pv |}.
Lemma frame3_std : frame3_ok (pt3 1 0 0) (pt3 0 1 0) (pt3 0 0 1) = true.
Proof.
  unfold frame3_ok, sqnorm. rewrite !pdot_inner, !inner3. cbn [ssub s1 slt R_ops]. rewrite !sabs_R. pose proof prim_tol_bound as [Ht _].
  rewrite !Rltb_true; [reflexivity| | | | | |]; apply Rabs_def1; lra.
Qed.
Lemma std_check r a ulo uhi vlo vhi pu pv : ulo <= uhi -> vlo <= vhi -> rv_check (std_surf r a ulo uhi vlo vhi pu pv) = Ok tt.
Proof.
  intros Hu Hv. unfold rv_check, std_surf. cbn [rv_x rv_y rv_z rv_bounds]. rewrite frame3_std. unfold bounds_ok. cbn [assert_ bind sle R_ops b_ulo b_uhi b_vlo b_vhi].
  rewrite !Rleb_true by assumption. reflexivity.
Qed.
Lemma full_turn : winding_flag 0 (2 * PI) = Ok true.
Proof.
  destruct (winding_spec 0 (2 * PI)) as (b & E & H). rewrite E. f_equal. apply H. exists 1%Z. replace (2 * PI - 0 - 2 * PI * 1) with 0 by ring. rewrite Rabs_R0. apply prim_tol_bound.
Qed.

Lemma cone_refuted : exists (c : rotsurf R (vec R 3)) u v q, cy_initialize c = Ok c /\ orthonormal3 (rv_x c) (rv_y c) (rv_z c) /\ 0 < rv_r c /\ 0 < rv_a c < PI / 2 /\
  b_ulo (rv_bounds c) <= u <= b_uhi (rv_bounds c) /\ b_vlo (rv_bounds c) <= v <= b_vhi (rv_bounds c) /\ b_uhi (rv_bounds c) = b_ulo (rv_bounds c) + 2 * PI /\
  co_evaluate c u v = Ok q /\
  exists u' v' q', co_inverse_evaluate c q (b_ulo (rv_bounds c)) (b_uhi (rv_bounds c)) (b_vlo (rv_bounds c)) (b_vhi (rv_bounds c)) = Ok ((u', v'), true) /\
    co_evaluate c u' v' = Ok q' /\ q' <> q.
Proof.
  pose proof PI_RGT_0 as HP. assert (Hs : 0 < cos (PI / 4)) by (apply cos_gt_0; lra). assert (Esc : sin (PI / 4) = cos (PI / 4)) by (rewrite sin_PI4, cos_PI4; reflexivity).
  pose proof (cs1 (PI / 4)) as C. rewrite Esc in C. set (k := cos (PI / 4)) in *. assert (Hk : k <= 1) by nra.
  set (c := std_surf 1 (PI / 4) 0 (2 * PI) (-4) 4 true false). assert (Hv : -4 <= - 4 * k <= 4) by nra.
  exists c, 0, (- 4 * k), (co_pt c 0 (- 4 * k)).
  assert (Ept : forall u v, co_pt c u v = pt3 ((1 + v * k) * cos u) ((1 + v * k) * sin u) (v * k)).
  { intros u v. unfold co_pt, fr, c, std_surf. cbn [rv_location rv_x rv_y rv_z rv_r rv_a]. rewrite Esc. apply at3_std. }
  split; [|split; [apply std3|split; [cbn; lra|split; [cbn [rv_a c std_surf]; lra|split; [cbn [rv_bounds b_ulo b_uhi c std_surf]; lra|split; [exact Hv|split; [cbn [rv_bounds b_ulo b_uhi c std_surf]; lra|split; [apply co_eval|]]]]]]]].
  - unfold cy_initialize. unfold c at 1. rewrite std_check by lra. cbn [bind]. unfold c at 1 2. cbn [rv_bounds b_ulo b_uhi std_surf]. rewrite full_turn, bind_Ok. reflexivity.
  - cbn [rv_bounds b_ulo b_uhi b_vlo b_vhi c std_surf]. fold (std_surf 1 (PI / 4) 0 (2 * PI) (-4) 4 true false). fold c.
    destruct (cone_inverse c std3 (co_pt c 0 (- 4 * k)) 0 (2 * PI) (-4) 4 ltac:(lra) ltac:(lra)) as (u' & _ & _ & _ & _ & E). rewrite E. clear E.
    rewrite Ept. set (q := pt3 _ _ _).
    assert (Ax : along (rv_location c) (rv_x c) q = -1). { unfold along, q, inner, rsum. cbn. rewrite ?cos_0, ?sin_0. replace (-4 * k) with (- (4 * k)) by ring. nra. }
    assert (Ay : along (rv_location c) (rv_y c) q = 0). { unfold along, q, inner, rsum. cbn. rewrite ?cos_0, ?sin_0. ring. }
    assert (Az : along (rv_location c) (rv_z c) q = -2). { unfold along, q, inner, rsum. cbn. rewrite ?cos_0, ?sin_0. nra. }
    rewrite Ax, Ay, Az. replace (-1 * -1 + 0 * 0) with 1 by ring. rewrite sqrt_1. cbn [rv_r rv_a c std_surf]. fold (std_surf 1 (PI / 4) 0 (2 * PI) (-4) 4 true false). fold c. fold k.
    replace ((1 - 1) * sin (PI / 4) + -2 * k) with (-2 * k) by ring. destruct (clamp_spec (-4) 4 (-2 * k) ltac:(lra)) as (_ & -> & _); [|nra].
    eexists _, _, _. split; [reflexivity|]. split; [apply co_eval|]. rewrite Ept. intros E. apply (f_equal (fun q : vec R 3 => fst (snd (snd q)))) in E. cbn in E. nra.
Qed.

Lemma torus_refuted : exists (c : rotsurf R (vec R 3)) u v q, to_initialize c = Ok c /\ orthonormal3 (rv_x c) (rv_y c) (rv_z c) /\ 0 < rv_r c /\ 0 < rv_a c /\
  b_ulo (rv_bounds c) <= u <= b_uhi (rv_bounds c) /\ b_vlo (rv_bounds c) <= v <= b_vhi (rv_bounds c) /\
  b_uhi (rv_bounds c) = b_ulo (rv_bounds c) + 2 * PI /\ b_vhi (rv_bounds c) = b_vlo (rv_bounds c) + 2 * PI /\ to_evaluate c u v = Ok q /\
  exists u' v' q', to_inverse_evaluate c q (b_ulo (rv_bounds c)) (b_uhi (rv_bounds c)) (b_vlo (rv_bounds c)) (b_vhi (rv_bounds c)) = Ok ((u', v'), true) /\
    to_evaluate c u' v' = Ok q' /\ q' <> q.
Proof.
  pose proof PI_RGT_0 as HP. set (c := std_surf 1 3 0 (2 * PI) 0 (2 * PI) true true). exists c, 0, PI, (to_pt c 0 PI).
  assert (Ept : forall u v, to_pt c u v = pt3 ((1 + 3 * cos v) * cos u) ((1 + 3 * cos v) * sin u) (3 * sin v)).
  { intros u v. unfold to_pt, fr, c, std_surf. cbn [rv_location rv_x rv_y rv_z rv_r rv_a]. apply at3_std. }
  split; [|split; [apply std3|split; [cbn; lra|split; [cbn; lra|split; [cbn [rv_bounds b_ulo b_uhi c std_surf]; lra|split; [cbn [rv_bounds b_vlo b_vhi c std_surf]; lra|split; [cbn [rv_bounds b_ulo b_uhi c std_surf]; lra|split; [cbn [rv_bounds b_vlo b_vhi c std_surf]; lra|split; [apply to_eval|]]]]]]]]].
  - unfold to_initialize. unfold c at 1. rewrite std_check by lra. cbn [bind]. unfold c at 1 2 3 4. cbn [rv_bounds b_ulo b_uhi b_vlo b_vhi std_surf]. rewrite full_turn, !bind_Ok. reflexivity.
  - cbn [rv_bounds b_ulo b_uhi b_vlo b_vhi c std_surf]. fold (std_surf 1 3 0 (2 * PI) 0 (2 * PI) true true). fold c.
    rewrite Ept. rewrite cos_PI, sin_PI, cos_0, sin_0. set (q := pt3 _ _ _).
    assert (Ax : along (rv_location c) (rv_x c) q = -2). { unfold along, q, inner, rsum. cbn. rewrite ?cos_0, ?sin_0. ring. }
    assert (Ay : along (rv_location c) (rv_y c) q = 0). { unfold along, q, inner, rsum. cbn. rewrite ?cos_0, ?sin_0. ring. }
    assert (Az : along (rv_location c) (rv_z c) q = 0). { unfold along, q, inner, rsum. cbn. rewrite ?cos_0, ?sin_0. ring. }
    unfold to_inverse_evaluate. rewrite !along_pdot_r, Ax, Ay, Az. unfold shypot. cbn [satan2 R_trig ssqrt smul sadd ssub R_ops]. cbn [rv_r c std_surf]. fold (std_surf 1 3 0 (2 * PI) 0 (2 * PI) true true). fold c.
    replace (-2 * -2 + 0 * 0) with (2 * 2) by ring. rewrite sqrt_square by lra. replace (2 - 1) with 1 by ring.
    assert (Ea : Ratan2 0 1 = 0). { unfold Ratan2. destruct (Rlt_dec 0 1); [|lra]. unfold Rdiv. rewrite Rmult_0_l. apply atan_0. } rewrite Ea.
    destruct (clip_angle (Ratan2 0 (-2)) 0 (2 * PI) ltac:(lra)) as (u' & Eu & _ & _ & _). destruct (clip_angle 0 0 (2 * PI) ltac:(lra)) as (v' & Ev & _ & _ & Fv).
    cbn [sofZ spi smul R_ops R_trig] in *. rewrite Eu. cbn [bind]. rewrite Ev. cbn [bind]. destruct (Fv ltac:(lra)) as [Cv _]. rewrite cos_0 in Cv.
    exists u', v', (to_pt c u' v'). split; [reflexivity|]. split; [apply to_eval|]. rewrite Ept, Cv. intros E.
    pose proof (f_equal (fun q : vec R 3 => fst q) E) as E1. pose proof (f_equal (fun q : vec R 3 => fst (snd q)) E) as E2. cbn in E1, E2. pose proof (cs1 u'). nra.
Qed.

Lemma sphere_range_refuted : exists (c : rotsurf R (vec R 3)) u v q, (exists b, sp_initialize c = Ok (rv_with_periodic c b false)) /\ orthonormal3 (rv_x c) (rv_y c) (rv_z c) /\ 0 < rv_r c /\
  b_ulo (rv_bounds c) <= u <= b_uhi (rv_bounds c) /\ b_vlo (rv_bounds c) <= v <= b_vhi (rv_bounds c) /\ sp_evaluate c u v = Ok q /\
  exists u' v' q', sp_inverse_evaluate c q (b_ulo (rv_bounds c)) (b_uhi (rv_bounds c)) (b_vlo (rv_bounds c)) (b_vhi (rv_bounds c)) = Ok ((u', v'), true) /\
    sp_evaluate c u' v' = Ok q' /\ q' <> q.
Proof.
  pose proof PI_RGT_0 as HP. set (c := std_surf 1 0 0 (PI / 2) 0 PI false false). exists c, 0, PI, (sp_pt c 0 PI).
  assert (Ept : forall u v, sp_pt c u v = pt3 (1 * cos v * cos u) (1 * cos v * sin u) (1 * sin v)).
  { intros u v. unfold sp_pt, fr, c, std_surf. cbn [rv_location rv_x rv_y rv_z rv_r rv_a]. apply at3_std. }
  split; [|split; [apply std3|split; [cbn; lra|split; [cbn [rv_bounds b_ulo b_uhi c std_surf]; lra|split; [cbn [rv_bounds b_vlo b_vhi c std_surf]; lra|split; [apply sp_eval|]]]]]].
  - destruct (winding_spec 0 (PI / 2)) as (b & E & _). exists b. unfold sp_initialize. unfold c at 1. rewrite std_check by lra. cbn [bind]. cbn [rv_bounds b_ulo b_uhi b_vlo b_vhi std_surf c]. rewrite E, bind_Ok.
    cbn [sadd spi sdiv sofZ slt ssub R_ops R_trig]. rewrite !sabs_R. pose proof prim_tol_bound as [_ Ht]. rewrite (Rltb_false (Rabs (0 + PI / 2))); [reflexivity|]. rewrite Rabs_right by lra. pose proof PI2_1. lra.
  - cbn [rv_bounds b_ulo b_uhi b_vlo b_vhi c std_surf]. fold (std_surf 1 0 0 (PI / 2) 0 PI false false). fold c.
    rewrite Ept. rewrite cos_PI, sin_PI, cos_0, sin_0. set (q := pt3 _ _ _).
    assert (Ax : along (rv_location c) (rv_x c) q = -1). { unfold along, q, inner, rsum. cbn. rewrite ?cos_0, ?sin_0. ring. }
    assert (Ay : along (rv_location c) (rv_y c) q = 0). { unfold along, q, inner, rsum. cbn. rewrite ?cos_0, ?sin_0. ring. }
    assert (Az : along (rv_location c) (rv_z c) q = 0). { unfold along, q, inner, rsum. cbn. rewrite ?cos_0, ?sin_0. ring. }
    unfold sp_inverse_evaluate. rewrite !along_pdot_r, Ax, Ay, Az.
    destruct (clip_angle (satan2 0 (-1)) 0 (PI / 2) ltac:(lra)) as (u' & Eu & Ru & _ & _). destruct (clip_angle (satan2 0 (shypot (-1) 0)) 0 PI ltac:(lra)) as (v' & Ev & Rv & Nv & _).
    rewrite Eu. cbn [bind]. rewrite Ev. cbn [bind].
    assert (Eh : shypot (-1) 0 = 1). { unfold shypot. cbn [ssqrt smul sadd R_ops]. replace (-1 * -1 + 0 * 0) with 1 by ring. apply sqrt_1. }
    assert (Ea : Ratan2 0 1 = 0). { unfold Ratan2. destruct (Rlt_dec 0 1); [|lra]. unfold Rdiv. rewrite Rmult_0_l. apply atan_0. }
    rewrite Eh in Nv. cbn [satan2 R_trig] in Nv. rewrite Ea in Nv. specialize (Nv 0 ltac:(lra)). rewrite !Rminus_0_r, cos_0 in Nv. destruct (cos_1_sin_0 _ Nv) as [Cv _].
    exists u', v', (sp_pt c u' v'). split; [reflexivity|]. split; [apply sp_eval|]. rewrite Ept, Cv. intros E.
    apply (f_equal (fun q : vec R 3 => fst q)) in E. cbn in E. assert (0 <= cos u') by (apply cos_ge_0; lra). lra.
Qed.

(** ** Flags *)
Lemma sphere_flag_refuted : exists c : rotsurf R (vec R 3), sp_initialize c = Ok c /\ orthonormal3 (rv_x c) (rv_y c) (rv_z c) /\ 0 < rv_r c /\ rv_periodic_v c = true /\
  forall u q q', sp_evaluate c u (b_vlo (rv_bounds c)) = Ok q -> sp_evaluate c u (b_vhi (rv_bounds c)) = Ok q' -> q <> q'.
Proof.
  pose proof PI_RGT_0 as HP. set (c := std_surf 1 0 0 (2 * PI) (- (PI / 2)) (PI / 2) true true). exists c.
  assert (Ept : forall u v, sp_pt c u v = pt3 (1 * cos v * cos u) (1 * cos v * sin u) (1 * sin v)).
  { intros u v. unfold sp_pt, fr, c, std_surf. cbn [rv_location rv_x rv_y rv_z rv_r rv_a]. apply at3_std. }
  split; [|split; [apply std3|split; [cbn; lra|split; [reflexivity|]]]].
  - unfold sp_initialize. unfold c at 1. rewrite std_check by lra. cbn [bind]. cbn [rv_bounds b_ulo b_uhi b_vlo b_vhi std_surf c]. rewrite full_turn, bind_Ok.
    cbn [sadd spi sdiv sofZ slt ssub R_ops R_trig]. rewrite !sabs_R. pose proof prim_tol_bound as [Ht _]. replace (- (PI / 2) + PI / 2) with 0 by ring. replace (PI / 2 - PI / 2) with 0 by ring. rewrite Rabs_R0, Rltb_true by exact Ht. reflexivity.
  - intros u q q' E1 E2. rewrite sp_eval in E1, E2. apply Ok_inj in E1, E2. subst q q'. rewrite !Ept. cbn [rv_bounds b_vlo b_vhi c std_surf]. rewrite sin_neg, cos_neg, sin_PI2. intros E.
    apply (f_equal (fun q : vec R 3 => fst (snd (snd q)))) in E. cbn in E. lra.
Qed.
Lemma flag_degenerate lo : winding_flag lo lo = Ok true.
Proof.
  destruct (winding_spec lo lo) as (b & E & H). rewrite E. f_equal. apply H. exists 0%Z. replace (lo - lo - 2 * PI * 0) with 0 by ring. rewrite Rabs_R0. apply prim_tol_bound.
Qed.
Lemma rot_flags d (c : rotsurf R (vec R d)) : orthonormal3 (rv_x c) (rv_y c) (rv_z c) -> b_ulo (rv_bounds c) <= b_uhi (rv_bounds c) -> b_vlo (rv_bounds c) <= b_vhi (rv_bounds c) ->
  exists bu bv, (bu = true <-> whole_turns prim_tol (b_ulo (rv_bounds c)) (b_uhi (rv_bounds c))) /\ (bv = true <-> whole_turns prim_tol (b_vlo (rv_bounds c)) (b_vhi (rv_bounds c))) /\
    cy_initialize c = Ok (rv_with_periodic c bu false) /\ to_initialize c = Ok (rv_with_periodic c bu bv) /\
    exists bs, sp_initialize c = Ok (rv_with_periodic c bu bs) /\ (bs = true <-> Rabs (b_vlo (rv_bounds c) + PI / 2) < prim_tol /\ Rabs (b_vhi (rv_bounds c) - PI / 2) < prim_tol).
Proof.
  intros ((Ha & Hb & Hab) & Hc & Hac & Hbc) Hu Hv. pose proof prim_tol_bound as [Ht _].
  assert (Ck : rv_check c = Ok tt).
  { unfold rv_check, frame3_ok, bounds_ok, sqnorm. rewrite !pdot_inner, (inner_comm _ (rv_z c) (rv_x c)), Ha, Hb, Hc, Hab, Hac, Hbc. cbn [ssub s1 slt sle R_ops]. rewrite !sabs_R. replace (1 - 1) with 0 by ring.
    rewrite Rabs_R0, Rltb_true by exact Ht. rewrite !Rleb_true by assumption. reflexivity. }
  destruct (winding_spec (b_ulo (rv_bounds c)) (b_uhi (rv_bounds c))) as (bu & Eu & Hbu). destruct (winding_spec (b_vlo (rv_bounds c)) (b_vhi (rv_bounds c))) as (bv & Ev & Hbv).
  exists bu, bv. split; [exact Hbu|]. split; [exact Hbv|]. unfold cy_initialize, to_initialize, sp_initialize. rewrite Ck, Eu, Ev. cbn [bind]. split; [reflexivity|]. split; [reflexivity|].
  eexists. split; [reflexivity|]. cbn [sadd spi sdiv sofZ slt ssub R_ops R_trig]. rewrite !sabs_R, andb_true_iff. unfold Rltb.
  destruct (Rlt_dec (Rabs (b_vlo (rv_bounds c) + PI / 2)) prim_tol), (Rlt_dec (Rabs (b_vhi (rv_bounds c) - PI / 2)) prim_tol); intuition congruence.
Qed.

(** ** Ellipse whose frame rows are orthogonal but not unit vectors *)
Lemma ellipse_frame_refuted : exists c : ellipse R (vec R 2), el_initialize c = Ok c /\ inner (el_x c) (el_y c) = 0 /\
  forall fuel s q, el_lower c <= s <= el_upper c -> el_evaluate c s = Ok q -> el_inverse_evaluate fuel c q = NonFinite.
Proof.
  pose proof PI_RGT_0 as HP. pose proof prim_tol_bound as [Ht Ht'].
  set (c := {| el_center := pt 0 0; el_x := pt 2 0; el_y := pt 0 2; el_major := 1; el_minor := 1; el_lower := 0; el_upper := PI; el_periodic := false |}).
  set (c2 := {| el_center := pt 0 0; el_x := pt 1 0; el_y := pt 0 1; el_major := 2; el_minor := 2; el_lower := 0; el_upper := PI; el_periodic := false |}).
  exists c. split; [|split].
  - unfold el_initialize, c. cbn [el_major el_minor el_x el_y el_lower el_upper s0 slt sle R_ops]. rewrite pdot_inner, inner2.
    replace (2 * 0 + 0 * 2) with 0 by ring. rewrite sabs_R, Rabs_R0. rewrite !Rltb_true, !Rleb_true by lra. cbn [assert_ bind]. rewrite half_turn by ring. reflexivity.
  - unfold c. cbn [el_x el_y]. rewrite inner2. ring.
  - intros fuel s p _ _. unfold el_inverse_evaluate, el_approximate_inverse_evaluate. change (el_lower c) with 0. change (el_upper c) with PI.
    cbn [sle R_ops]. rewrite Rleb_true by lra. cbn [assert_ bind].
    assert (Nx : pnorm (el_x c) = 2). { unfold pnorm, sqnorm. rewrite pdot_inner. unfold inner, rsum. cbn. replace (0 + 2 * 2 + 0 * 0) with (2 * 2) by ring. apply sqrt_square. lra. }
    assert (Ny : pnorm (el_y c) = 2). { unfold pnorm, sqnorm. rewrite pdot_inner. unfold inner, rsum. cbn. replace (0 + 0 * 0 + 2 * 2) with (2 * 2) by ring. apply sqrt_square. lra. }
    rewrite Nx, Ny. unfold pdivs at 1 2. cbn [seq_ s0 R_ops]. rewrite Reqb_false by lra. cbn [bind].
    assert (E1 : pmul (sdiv (s1 : R) 2) (el_x c) = pt 1 0). { vext. destruct i as [|[|i]]; cbn; try lia; field. }
    assert (E2 : pmul (sdiv (s1 : R) 2) (el_y c) = pt 0 1). { vext. destruct i as [|[|i]]; cbn; try lia; field. }
    rewrite E1, E2. cbv zeta. match goal with |- context [el_loop 100 c ?q _ _ _ _] => set (p2 := q) end. change 100%nat with (S 99). cbn [el_loop]. rewrite sabs_R. cbn [slt R_ops]. rewrite Rltb_true by apply snummax_big.
    assert (Es : forall t, el_step c p2 (pt 1 0) (pt 0 1) t = NonFinite).
    { intros t. assert (Ept : forall t, el_pt c t = el_pt c2 t) by (intros; unfold el_pt; vext; destruct i as [|[|i]]; cbn; try lia; ring).
      assert (Ept1 : forall t, el_pt1 c t = el_pt1 c2 t) by (intros; unfold el_pt1; vext; destruct i as [|[|i]]; cbn; try lia; ring).
      assert (Ept2 : forall t, el_pt2 c t = el_pt2 c2 t) by (intros; unfold el_pt2; vext; destruct i as [|[|i]]; cbn; try lia; ring).
      assert (Ek : evaluate_curvature (el_ops c) t = evaluate_curvature (el_ops c2) t).
      { unfold evaluate_curvature. cbn [c_d1 c_d2 el_ops]. now rewrite !el_eval1, !el_eval2, !Ept1, !Ept2. }
      destruct (el_curv 2 c2 t std2 ltac:(cbn; lra) ltac:(cbn; lra)) as [_ EK]. cbv zeta in EK. change (el_major c2) with 2 in EK. change (el_minor c2) with 2 in EK.
      replace (2 ^ 2 * sin t ^ 2 + 2 ^ 2 * cos t ^ 2) with 4 in EK by (pose proof (cs1 t); nra).
      unfold el_step. rewrite el_eval, bind_Ok, Ek, EK, bind_Ok. set (k := at2 _ _ _ _ _).
      assert (Esn : sqnorm k = 1 / 4). { unfold sqnorm. rewrite pdot_inner. unfold k, at2, inner, rsum. cbn. pose proof (cs1 t). nra. }
      rewrite Esn. cbv zeta. cbn [slt R_ops]. rewrite Rltb_true by lra. cbn [assert_ bind]. unfold ddiv, pdivs. cbn [seq_ s0 ssqrt R_ops].
      assert (0 < sqrt (1 / 4)) by (apply sqrt_lt_R0; lra). rewrite (Reqb_false (sqrt (1 / 4))) by lra. cbn [bind]. rewrite (Reqb_false (1 / 4)) by lra. cbn [bind].
      match goal with |- context [Reqb (sqrt ?e) 0] => assert (Hneg : e < 0) end.
      { rewrite !pdot_inner. unfold el_pt, at2, inner, rsum. cbn. pose proof (cs1 t). nra. }
      rewrite sqrt_neg_0 by lra. rewrite Reqb_true by reflexivity. reflexivity. }
    rewrite Es. reflexivity.
Qed.

(** ** Statements with the tolerance written out *)
Lemma ellipse_fixed' d (c : ellipse R (vec R d)) t q : orthonormal2 (el_x c) (el_y c) -> 0 < el_minor c <= el_major c ->
  eps10 < el_minor c ^ 2 / el_major c ^ 4 -> 0 <= t <= PI / 2 -> el_evaluate c t = Ok q -> el_step c q (el_x c) (el_y c) t = Ok (t, 0).
Proof.
  intros Ho Hm Ht Hq E. rewrite el_eval in E. apply Ok_inj in E. subst q. destruct (along_at2_frame (el_center c) _ _ (el_major c * cos t) (el_minor c * sin t) Ho) as [Ex Ey].
  apply el_step_fixed; try assumption. now rewrite prim_tol_R.
Qed.
Lemma ellipse_equal' d (c : ellipse R (vec R d)) p lo hi : orthonormal2 (el_x c) (el_y c) -> 0 < el_major c -> el_minor c = el_major c ->
  eps10 < / el_major c ^ 2 -> 0 <= lo -> lo <= hi ->
  exists n, forall fuel, (n <= fuel)%nat -> exists t q, el_approximate_inverse_evaluate fuel c p lo hi = Ok t /\ lo <= t <= hi /\
    el_evaluate c t = Ok q /\ forall x qx, lo <= x <= hi -> el_evaluate c x = Ok qx -> edist p q <= edist p qx.
Proof. intros Ho Ha Eb Ht. apply ellipse_equal_nearest; try assumption. now rewrite prim_tol_R. Qed.
Lemma circle_flag' d (c : circle R (vec R d)) : orthonormal2 (ci_x c) (ci_y c) -> ci_lower c <= ci_upper c ->
  exists c', ci_initialize c = Ok c' /\ ci_center c' = ci_center c /\ ci_x c' = ci_x c /\ ci_y c' = ci_y c /\ ci_radius c' = ci_radius c /\
    ci_lower c' = ci_lower c /\ ci_upper c' = ci_upper c /\ (ci_periodic c' = true <-> whole_turns eps10 (ci_lower c) (ci_upper c)).
Proof. unfold eps10. rewrite <- prim_tol_R. apply circle_initialize. Qed.
Lemma ellipse_flag' d (c : ellipse R (vec R d)) : inner (el_x c) (el_y c) = 0 -> 0 < el_minor c <= el_major c -> el_lower c <= el_upper c ->
  exists c', el_initialize c = Ok c' /\ el_center c' = el_center c /\ el_x c' = el_x c /\ el_y c' = el_y c /\ el_major c' = el_major c /\ el_minor c' = el_minor c /\
    el_lower c' = el_lower c /\ el_upper c' = el_upper c /\ (el_periodic c' = true <-> whole_turns eps10 (el_lower c) (el_upper c)).
Proof. unfold eps10. rewrite <- prim_tol_R. apply ellipse_initialize. Qed.
Lemma rot_flags' d (c : rotsurf R (vec R d)) : orthonormal3 (rv_x c) (rv_y c) (rv_z c) -> b_ulo (rv_bounds c) <= b_uhi (rv_bounds c) -> b_vlo (rv_bounds c) <= b_vhi (rv_bounds c) ->
  exists bu bv, (bu = true <-> whole_turns eps10 (b_ulo (rv_bounds c)) (b_uhi (rv_bounds c))) /\ (bv = true <-> whole_turns eps10 (b_vlo (rv_bounds c)) (b_vhi (rv_bounds c))) /\
    cy_initialize c = Ok (rv_with_periodic c bu false) /\ to_initialize c = Ok (rv_with_periodic c bu bv) /\
    exists bs, sp_initialize c = Ok (rv_with_periodic c bu bs) /\ (bs = true <-> Rabs (b_vlo (rv_bounds c) + PI / 2) < eps10 /\ Rabs (b_vhi (rv_bounds c) - PI / 2) < eps10).
Proof. unfold eps10. rewrite <- prim_tol_R. apply rot_flags. Qed.
(** A range of exactly whole turns is closed. *)
Lemma whole_turn_closed d (c : circle R (vec R d)) (k : Z) : ci_upper c = ci_lower c + 2 * PI * IZR k -> ci_evaluate c (ci_lower c) = ci_evaluate c (ci_upper c).
Proof.
  intros E. rewrite !ci_eval, E. unfold ci_pt. replace (ci_lower c + 2 * PI * IZR k) with (ci_lower c + IZR k * (2 * PI)) by ring. now rewrite cos_period_Z, sin_period_Z.
Qed.
Lemma circle_degenerate_flag : exists c : circle R (vec R 2), ci_initialize c = Ok c /\ ci_lower c = ci_upper c /\ ci_periodic c = true.
Proof.
  exists {| ci_center := pt 0 0; ci_x := pt 1 0; ci_y := pt 0 1; ci_radius := 1; ci_lower := 1; ci_upper := 1; ci_periodic := true |}. split; [|split; reflexivity].
  unfold ci_initialize. cbn [ci_x ci_y ci_lower ci_upper]. rewrite frame2_std. cbn [assert_ bind sle R_ops]. rewrite Rleb_true by lra. cbn [assert_ bind]. rewrite flag_degenerate. reflexivity.
Qed.
