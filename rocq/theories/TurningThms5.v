(** get_turning_angle of B-splines and rational curves: failures and a witness. *)
From Coq Require Import Reals Lra Lia ZArith List Psatz Permutation.
From Verif Require Import Monad MonadFacts LoopFacts Scalar ScalarFacts Spec SpecFacts SpecGeom SpecAnalysis SpecTurning Polar BezierMath BezierFacts BezierThms BezierThms2 ModelCurve ModelBezier ModelBSpline ModelRational
  ModelPatch ModelPrimitive TrigFacts EllipseThms AnalysisThms AnalysisThms2 BSplineMath BSplineFacts BSplineThms BSplineThms2 BSplineConvert RationalFacts RationalThms RationalThms2 ExampleFacts ModelTurning TurningFacts TurningThms TurningThms2 TurningThms3 TurningThms4.
Import ListNotations.
Local Open Scope R_scope.

Lemma for_nat_undef {S} n k i body (s : S) : (k < n)%nat -> (forall j, (j < k)%nat -> body (i + Z.of_nat j)%Z s = Ok s) -> body (i + Z.of_nat k)%Z s = Undef -> for_nat n i body s = Undef.
Proof.
  revert k i. induction n as [|n IH]; intros k i Hk Hp Hu; [lia|]. cbn [for_nat]. destruct k as [|k].
  - rewrite Z.add_0_r in Hu. now rewrite Hu.
  - specialize (Hp 0%nat ltac:(lia)) as H0. rewrite Z.add_0_r in H0. rewrite H0, bind_Ok. apply (IH k); [lia| |].
    + intros j Hj. specialize (Hp (Datatypes.S j) ltac:(lia)). now replace (i + 1 + Z.of_nat j)%Z with (i + Z.of_nat (Datatypes.S j))%Z by lia.
    + now replace (i + 1 + Z.of_nat k)%Z with (i + Z.of_nat (Datatypes.S k))%Z by lia.
Qed.
(** Degree 3 from a knot after the start: reads beyond the result of split. *)
Lemma bspline_cubic_knot_start (c : bspline R (vec R 2)) t0 t1 : clean_bspline c -> bspline_degree (bs_pts c) (bs_knots c) = 3%nat ->
  lower_of (bs_pts c) (bs_knots c) < t0 <= upper_of (bs_pts c) (bs_knots c) -> t0 <= t1 -> In t0 (bs_knots c) -> bs_turning_angle 3 c t0 t1 = Undef.
Proof.
  intros (Hv & Ha & Hper & Hs & Hm) Hd H0 H1 Hk. destruct (bspline_convert 2 c Hv Ha Hs) as (segs & bounds & E & HL & B0 & BN & Hin & Hinc & Hp).
  unfold bs_turning_angle. cbn [Nat.eqb negb]. rewrite E, bind_Ok. assert (It : In t0 bounds) by (apply Hin; split; [exact Hk|lra]).
  destruct (In_nth _ _ 0 It) as (m & Hml & Em). rewrite HL in Hml. assert (0 < m)%nat by (apply (bounds_lt bounds (length segs)); try assumption; try lia; rewrite B0, Em; lra).
  unfold pieces_turning, for_up. apply (for_nat_undef _ (m - 1)).
  - unfold zlen. lia.
  - intros j Hj. rewrite Z.add_0_l, (get_nth bounds 0) by lia. rewrite bind_Ok. replace (Z.of_nat j + 1)%Z with (Z.of_nat (j + 1)) by lia. rewrite (get_nth bounds 0) by lia. rewrite bind_Ok.
    assert (nth (j + 1) bounds 0 < t0). { apply (Rlt_le_trans _ (nth (j + 1 + 1) bounds 0)); [apply Hinc; lia|]. rewrite <- Em. apply (bounds_le bounds (length segs)); try assumption; lia. }
    cbn [slt R_ops]. rewrite Rltb_true by assumption. reflexivity.
  - rewrite Z.add_0_l, (get_nth bounds 0) by lia. rewrite bind_Ok. replace (Z.of_nat (m - 1) + 1)%Z with (Z.of_nat m) by lia. rewrite (get_nth bounds 0) by lia. rewrite bind_Ok, Em.
    pose proof (Hinc (m - 1)%nat ltac:(lia)) as Hlt. replace (m - 1 + 1)%nat with m in Hlt by lia. rewrite Em in Hlt. set (b := nth (m - 1) bounds 0) in *.
    cbn [slt R_ops]. rewrite !Rltb_false by lra. cbn [orb]. rewrite !ddiv_R by (cbn [ssub R_ops]; lra). rewrite !bind_Ok. destruct (Hp (m - 1)%nat) as (l & El & Hl & _); [lia|].
    unfold get. destruct (Z.ltb_spec (Z.of_nat (m - 1)) 0); [lia|]. rewrite Nat2Z.id, El, bind_Ok, smax_R, smin_R. cbn [ssub s0 s1 R_ops].
    rewrite Rmax_left, Rmin_right.
    + replace ((t0 - b) / (t0 - b)) with 1 by (field; lra). change (bzt_turning_angle 3 (mk_bezier l)) with (bz3_turning_angle (mk_bezier l)). unfold bz3_turning_angle. cbn [Nat.eqb negb].
      rewrite (proj1 (cubic_subcurve_ub 2 l ltac:(congruence))). reflexivity.
    + apply (Rmult_le_reg_r (t0 - b)); [lra|]. unfold Rdiv. rewrite Rmult_assoc, Rinv_l by lra. lra.
    + unfold Rdiv. rewrite Rinv_r by lra. lra.
Qed.
(** Degree 1: always 0. *)
Lemma bspline_linear (c : bspline R (vec R 2)) t0 t1 : clean_bspline c -> bs_turning_angle 1 c t0 t1 = Ok 0.
Proof.
  intros (Hv & Ha & Hper & Hs & Hm). destruct (bspline_convert 2 c Hv Ha Hs) as (segs & bounds & E & HL & B0 & BN & Hin & Hinc & Hp).
  unfold bs_turning_angle. cbn [Nat.eqb negb]. rewrite E, bind_Ok. unfold pieces_turning.
  match goal with |- for_up 0 ?n ?B ?s = _ => destruct (for_up_inv (fun i th => th = 0) 0 n B s) as (th & E' & ->) end; [unfold zlen; lia|reflexivity| |exact E'].
  intros i th Hi ->. unfold zlen in Hi. destruct (Z_of_nat_complete i) as [k ->]; [lia|]. rewrite (get_nth bounds 0) by lia. rewrite bind_Ok.
  replace (Z.of_nat k + 1)%Z with (Z.of_nat (k + 1)) in * by lia. rewrite (get_nth bounds 0) by lia. rewrite bind_Ok. exists 0. split; [|reflexivity].
  destruct (_ || _)%bool; [reflexivity|]. specialize (Hinc k ltac:(lia)). rewrite !ddiv_R by (cbn [ssub R_ops]; lra). rewrite !bind_Ok. destruct (Hp k) as (l & El & _ & _); [lia|].
  unfold get. destruct (Z.ltb_spec (Z.of_nat k) 0); [lia|]. rewrite Nat2Z.id, El, bind_Ok.
  change (bzt_turning_angle 1 (mk_bezier l)) with (bz01_turning_angle (mk_bezier l)). cbn [bz01_turning_angle bind sadd s0 R_ops]. f_equal. ring.
Qed.

(** The parabola as a cubic B-spline. *)
Definition parab : bspline R (vec R 2) := mk_bspline [P2 0 0; P2 (1 / 3) 0; P2 1 (2 / 3); P2 (5 / 3) (8 / 3); P2 2 4] (map IZR [0; 0; 0; 0; 1; 2; 2; 2; 2]%Z).
Lemma parab_clean : clean_bspline parab.
Proof.
  split; [apply valid_of_Z; reflexivity|]. split; [apply apart_of_Z|]. split; [reflexivity|]. split; [cbn; lra|].
  intros u Hu. change (lower_of _ _) with 0 in Hu. change (upper_of _ _) with 2 in Hu. change (bspline_degree _ _) with 3%nat. cbn [parab mk_bspline bs_knots map count_occ].
  repeat match goal with |- context [Req_EM_T ?a ?b] => destruct (Req_EM_T a b); try (exfalso; lra) end; lia.
Qed.
Lemma parab_value t : 0 <= t <= 2 -> bs_evaluate parab t = Ok (P2 t (t ^ 2)).
Proof.
  intros Ht. destruct parab_clean as (Hv & Ha & Hp & Hs & _). rewrite bspline_eval; try assumption; [|left; left; exact Hs]. f_equal.
  assert (Hk : exists k, (k = 3 \/ k = 4)%Z /\ in_span (knot_of (bs_knots parab)) (knot_of (bs_knots parab) 5) k t).
  { destruct (Rlt_dec t 1) as [H|H]; [exists 3%Z|exists 4%Z].
    - split; [now left|]. left. unfold knot_of. change (Z.to_nat 5) with 5%nat. change (Z.to_nat 3) with 3%nat. change (Z.to_nat (3 + 1)) with 4%nat. cbn [nth parab mk_bspline bs_knots map]. lra.
    - split; [now right|]. destruct (Req_dec t 2) as [->|H2]; [right|left]; unfold knot_of; change (Z.to_nat 5) with 5%nat; change (Z.to_nat 4) with 4%nat; change (Z.to_nat (4 + 1)) with 5%nat; cbn [nth parab mk_bspline bs_knots map]; lra. }
  destruct Hk as (k & Hk & Hin). rewrite <- (tri_bspline_curve parab k t Hv); [| |exact Hin].
  - change (bspline_degree _ _) with 3%nat. apply vec_ext; intros i Hi. destruct Hk as [-> | ->]; cbn [repeat tri length]; unfold alU, knot_of, pts_at;
      repeat match goal with |- context [Z.to_nat ?z] => let n := eval vm_compute in (Z.to_nat z) in progress change (Z.to_nat z) with n end;
      cbn [nth parab mk_bspline bs_knots bs_pts map];
      rewrite ?coord_add, ?coord_mul by exact Hi; rewrite ?coord_add, ?coord_mul by exact Hi; rewrite ?coord_add, ?coord_mul by exact Hi;
      destruct i as [|[|i]]; [| |lia| | |lia]; cbn [coord fst snd P2 sadd smul R_ops]; field.
  - destruct Hk as [-> | ->]; cbn; lia.
Qed.
Definition parab1 (t : R) : vec R 2 := P2 1 (2 * t).
Lemma parab_smooth : smooth_bspline parab (fun t => P2 t (t ^ 2)) parab1.
Proof.
  unfold smooth_bspline. change (lower_of _ _) with 0. change (upper_of _ _) with 2. split; [exact parab_value|]. split.
  - intros t _ i Hi. apply deriv_within_of_deriv. destruct i as [|[|i]]; [| |lia]; unfold parab1; cbn [coord fst snd P2].
    + apply derivable_pt_lim_id.
    + replace (2 * t) with (INR 2 * t ^ 1) by (simpl; ring). apply (derivable_pt_lim_pow t 2).
  - intros t _. apply (norm2_nz (P2 1 0)). rewrite inner_2. unfold parab1. cbn [coord fst snd P2]. lra.
Qed.
Lemma parab_advancing segs bounds seg : bs_convert_to_Bezier parab = Ok (segs, bounds) -> In seg segs -> exists n, advancing n (bz_pts seg).
Proof.
  intros E Hin. destruct (bspline_pieces parab _ _ parab_clean parab_smooth) as (segs' & bounds' & E' & HL & B0 & BN & _ & Hinc & Hp). rewrite E in E'. injection E' as <- <-.
  destruct (In_nth_error _ _ Hin) as [j Hj]. assert (Hjl : (j < length segs)%nat) by (apply nth_error_Some; congruence).
  destruct (Hp j Hjl) as (l & g1 & El & Hl & Hval & _). rewrite Hj in El. injection El as ->. cbn [bz_pts mk_bezier]. specialize (Hinc j Hjl). cbv zeta in Hval. set (b := nth j bounds 0) in *. set (h := nth (j + 1) bounds 0 - b) in *.
  assert (Hh : 0 < h) by (unfold h; lra). change (S (bspline_degree (bs_pts parab) (bs_knots parab))) with 4%nat in Hl.
  assert (El' : l = [P2 b (b ^ 2); P2 (b + h / 3) (b ^ 2 + 2 * b * h / 3); P2 (b + 2 * h / 3) (b ^ 2 + 4 * b * h / 3 + h ^ 2 / 3); P2 (b + h) ((b + h) ^ 2)]).
  { apply cubic_unique; [exact Hl|reflexivity|]. intros s Hs. rewrite Hval by exact Hs. rewrite <- (tri_pts_curve [_; _; _; _] 3) by reflexivity. apply vec_ext; intros i Hi. cbn [repeat tri]. unfold albz.
    rewrite ?coord_add, ?coord_mul by exact Hi; rewrite ?coord_add, ?coord_mul by exact Hi; rewrite ?coord_add, ?coord_mul by exact Hi.
    unfold pt_at. repeat match goal with |- context [Z.to_nat ?z] => let n := eval vm_compute in (Z.to_nat z) in progress change (Z.to_nat z) with n end. cbn [nth].
    destruct i as [|[|i]]; [| |lia]; cbn [coord fst snd P2 sadd smul R_ops]; field. }
  exists (P2 1 0). subst l. intros i Hi. cbn [length] in Hi. destruct i as [|[|[|i]]]; [| | |lia]; rewrite inner_2, !coord_sub by lia; cbn [nth coord fst snd P2 ssub R_ops]; lra.
Qed.
Lemma parab_turning a b : a <= b -> turning parab1 a b (atan (2 * b) - atan (2 * a)).
Proof.
  intros H. exists (fun t => atan (2 * t)). split; [|split; [|reflexivity]].
  - apply (continuity_comp (fun t => 2 * t) atan).
    + apply continuity_mult; [apply continuity_const; intros x y; reflexivity|apply derivable_continuous, derivable_id].
    + intros x. apply derivable_continuous_pt. exists (/ (1 + x ^ 2)). apply derivable_pt_lim_atan.
  - intros t _. destruct (atan_polar 1 (2 * t)) as [S0 S1]; [lra|]. rewrite Rabs_right in S0, S1 by lra. unfold heading, norm2, parab1. cbn [coord fst snd P2].
    replace (2 * t / 1) with (2 * t) in S0, S1 by field. replace (1 ^ 2 + (2 * t) ^ 2) with (1 * 1 + 2 * t * (2 * t)) by ring. split; lra.
Qed.
Lemma parab_unique a b th : a <= b -> turning parab1 a b th -> th = atan (2 * b) - atan (2 * a).
Proof.
  intros H K. apply (turning_unique parab1 a b); [exact H| |exact K|now apply parab_turning]. intros t _. apply (norm2_nz (P2 1 0)). rewrite inner_2. unfold parab1. cbn [coord fst snd P2]. lra.
Qed.
Lemma parab_knot_end : exists theta, bs_turning_angle 3 parab 0 1 = Ok theta /\ turning parab1 0 2 theta /\ ~ turning parab1 0 1 theta.
Proof.
  destruct (bspline_cubic_knot_end parab _ parab1 0 1 parab_clean eq_refl parab_smooth parab_advancing) as (t2 & theta & Hi & Ht & Hn & E & T).
  - change (lower_of _ _) with 0. lra.
  - change (upper_of _ _) with 2. lra.
  - reflexivity.
  - cbn. tauto.
  - change (upper_of _ _) with 2 in *. assert (t2 = 2). { destruct (Hn 2) as [Q|Q]; [cbn; tauto|lra| |lra]. cbn in Hi. lra. } subst t2.
    exists theta. split; [exact E|]. split; [exact T|]. intros K. apply parab_unique in K; [|lra]. apply parab_unique in T; [|lra]. assert (L : 2 * 1 < 2 * 2) by lra. pose proof (atan_increasing _ _ L). lra.
Qed.
Lemma parab_knot_start : bs_turning_angle 3 parab 1 2 = Undef.
Proof. apply bspline_cubic_knot_start; [exact parab_clean|reflexivity| |lra|cbn; tauto]. change (lower_of _ _) with 0. change (upper_of _ _) with 2. lra. Qed.

(** ** Rational curves *)
Lemma sampled_side d1 (f1 : R -> vec R 2) u n t0 t1 : (2 <= n)%Z -> let s := fun i => t0 + IZR i / IZR (n - 1) * (t1 - t0) in
  (forall i, (0 <= i < n)%Z -> d1 (s i) = Ok (f1 (s i)) /\ / IZR (2 ^ 52) <= norm2 (f1 (s i)) /\ 0 < inner u (f1 (s i))) ->
  sampled_turning_angle d1 n t0 t1 = Ok (side u (f1 t1) - side u (f1 t0)).
Proof.
  intros Hn s Hf. assert (Hn1 : 0 < IZR (n - 1)) by (apply IZR_lt; lia).
  assert (S0 : s 0%Z = t0) by (unfold s; field; lra). assert (S1 : s (n - 1)%Z = t1) by (unfold s; field; lra).
  unfold sampled_turning_angle. cbn [Nat.eqb negb].
  match goal with |- context [for_up 1 n ?B ?S0] => destruct (for_up_inv (fun i st => st = (side u (f1 (s (i - 1)%Z)) - side u (f1 t0), s (i - 1)%Z)) 1 n B S0) as ([th tp] & E & H) end.
  - lia.
  - change (1 - 1)%Z with 0%Z. rewrite S0. cbn [s0 R_ops]. f_equal. ring.
  - intros i st Hi ->. cbv beta iota. rewrite ddiv_R by (cbn [sofZ R_ops]; lra).
    rewrite bind_Ok. cbn [sofZ sadd ssub smul R_ops]. fold (s i). destruct (Hf (i - 1)%Z) as (E1 & N1 & H1); [lia|]. destruct (Hf i) as (E2 & N2 & H2); [lia|].
    rewrite (base_value d1 _ _ _ _ E1 E2 N1 N2), bind_Ok, (side_turn u) by assumption.
    eexists; split; [reflexivity|]. replace (i + 1 - 1)%Z with i by lia. f_equal. ring.
  - rewrite E, bind_Ok. injection H as -> ->. rewrite S1. reflexivity.
Qed.
Definition loop_pts : list (vec R 2) := [P2 0 0; P2 10 10; P2 (-1) 10; P2 9 0].
Definition loop_rb : rbezier R 2 :=
  {| rb_pts := loop_pts; rb_weights := [1; 1; 1; 1]; rb_hom := {| bz_pts := hrows loop_pts [1; 1; 1; 1]; bz_periodic := false |}; rb_periodic := false |}.
Lemma loop_init : rb_initialize loop_rb = Ok loop_rb.
Proof. now apply rb_init_ok. Qed.
Lemma loop_derivative : exists f f1, (forall t, rb_evaluate loop_rb t = Ok (f t)) /\ (forall t, rb_evaluate_derivative loop_rb t = Ok (f1 t)) /\ (forall t, vderiv f t (f1 t)) /\
  (forall t, vderiv (bernstein_curve loop_pts) t (f1 t)).
Proof.
  pose proof (rb_init_fresh _ _ loop_init) as Hfr. destruct (rational_bezier_derivs 2 loop_rb Hfr ltac:(discriminate) eq_refl) as (f & f1 & f2 & H).
  assert (Hw : forall t, weight_sum 4 (bezier_basis 4 t) [1; 1; 1; 1] <> 0).
  { intros t. assert (E : weight_sum 4 (bezier_basis 4 t) [1; 1; 1; 1] = rsum 4 (fun i => bernstein 3 i t)).
    { unfold weight_sum, bezier_basis. change (4 - 1)%nat with 3%nat. apply rsum_ext. intros i Hi. destruct i as [|[|[|[|i]]]]; [cbn [nth]; ring..|lia]. }
    rewrite E, bernstein_partition. lra. }
  assert (Ev : forall t, rb_evaluate loop_rb t = Ok (f t)) by (intros t; exact (proj1 (H t (Hw t)))).
  assert (Dv : forall t, vderiv f t (f1 t)) by (intros t; exact (proj1 (proj2 (proj2 (proj2 (H t (Hw t))))))).
  exists f, f1. split; [exact Ev|]. split; [intros t; exact (proj1 (proj2 (H t (Hw t))))|]. split; [exact Dv|]. intros t i Hi.
  eapply derivable_pt_lim_ext; [|exact (Dv t i Hi)]. intros x. cbv beta. f_equal.
  pose proof (Ev x) as E. rewrite (rb_equal_weights loop_rb 1 x) in E; [|lra|discriminate|exact Hfr|reflexivity].
  change {| bz_pts := rb_pts loop_rb; bz_periodic := rb_periodic loop_rb |} with (mk_bezier loop_pts) in E. rewrite bezier_bernstein in E by discriminate.
  assert (Oi : forall a b : vec R 2, Ok a = Ok b -> a = b) by congruence. symmetry. apply Oi, E.
Qed.
(** A loop between two samples. *)
Lemma loop_turning : exists f1 theta, (forall t, rb_evaluate_derivative loop_rb t = Ok (f1 t)) /\ (forall t, 0 <= t <= 1 -> 0 < norm2 (f1 t)) /\
  rb_turning_angle loop_rb 0 1 = Ok (- (PI / 2)) /\ turning f1 0 1 theta /\ 0 < theta.
Proof.
  destruct loop_derivative as (f & f1 & _ & E1 & _ & Hf). exists f1.
  assert (Hx : forall t, coord 2 0 (f1 t) = 3 * (10 - 42 * t + 42 * t ^ 2)). { intros t. rewrite (cubic_derivative _ _ _ _ f1 t 0 Hf) by lia. cbn [coord fst snd P2]. ring. }
  assert (Hy : forall t, coord 2 1 (f1 t) = 3 * (10 - 20 * t)). { intros t. rewrite (cubic_derivative _ _ _ _ f1 t 1 Hf) by lia. cbn [coord fst snd P2]. ring. }
  assert (I1 : forall t, 0 <= t <= 1 / 2 -> 0 < inner (P2 (-1) 2) (f1 t)). { intros t Ht. rewrite inner_2, Hx, Hy. cbn [coord fst snd P2]. assert (0 <= t * (1 / 2 - t)) by (apply Rmult_le_pos; lra). lra. }
  assert (I2 : forall t, 1 / 2 <= t <= 1 -> 0 < inner (P2 (-1) (-2)) (f1 t)). { intros t Ht. rewrite inner_2, Hx, Hy. cbn [coord fst snd P2]. assert (0 <= (1 - t) * (t - 1 / 2)) by (apply Rmult_le_pos; lra). lra. }
  set (th1 := side (P2 (-1) 2) (f1 (1 / 2)) - side (P2 (-1) 2) (f1 0)). set (th2 := side (P2 (-1) (-2)) (f1 1) - side (P2 (-1) (-2)) (f1 (1 / 2))).
  exists (th1 + th2). split; [exact E1|]. split; [|split; [|split]].
  - intros t Ht. destruct (Rle_dec t (1 / 2)) as [Q|Q]; [specialize (I1 t ltac:(lra))|specialize (I2 t ltac:(lra))]; eapply norm2_nz, Rgt_not_eq; eassumption.
  - unfold rb_turning_angle. change (zlen (rb_pts loop_rb)) with 4%Z. rewrite (sampled_side _ f1 (P2 1 0)).
    + f_equal. unfold side, cross2. rewrite !inner_2, !Hx, !Hy. cbn [coord fst snd P2].
      match goal with |- atan ?A - atan ?B = _ => replace A with (- (1)) by field; replace B with 1 by field end. rewrite atan_opp, atan_1. lra.
    + lia.
    + intros i Hi. cbv zeta. set (t := 0 + IZR i / IZR (4 - 1) * (1 - 0)). assert (Hc : 1 <= coord 2 0 (f1 t)).
      { rewrite Hx. unfold t. change (4 - 1)%Z with 3%Z. assert (i = 0 \/ i = 1 \/ i = 2 \/ i = 3)%Z as [-> | [-> | [-> | ->]]] by lia; lra. }
      split; [apply E1|]. split; [|rewrite inner_2; change (coord 2 0 (P2 1 0)) with 1; change (coord 2 1 (P2 1 0)) with 0; lra].
      apply (Rle_trans _ 1). { apply (Rle_trans _ (/ 1)); [apply Rinv_le_contravar; [apply Rlt_0_1|apply IZR_le, Z.leb_le; reflexivity]|rewrite Rinv_1; apply Rle_refl]. }
      pose proof (norm2_sq (f1 t)). pose proof (norm2_pos (f1 t)). nra.
  - apply (turning_glue f1 0 (1 / 2) 1); [lra| | |].
    + apply (norm2_nz (P2 (-1) 2)). specialize (I1 (1 / 2)). lra.
    + apply side_turning; [lra| |intros t Ht; apply I1; lra]. intros i Hi. exact (cubic_cont _ _ _ _ f1 i Hf Hi).
    + apply side_turning; [lra| |intros t Ht; apply I2; lra]. intros i Hi. exact (cubic_cont _ _ _ _ f1 i Hf Hi).
  - assert (A1 : 0 < th1). { unfold th1, side, cross2. rewrite !inner_2, !Hx, !Hy. cbn [coord fst snd P2]. match goal with |- 0 < atan ?A - atan ?B => assert (L : B < A) by lra; pose proof (atan_increasing _ _ L); lra end. }
    assert (A2 : 0 < th2). { unfold th2, side, cross2. rewrite !inner_2, !Hx, !Hy. cbn [coord fst snd P2]. match goal with |- 0 < atan ?A - atan ?B => assert (L : B < A) by lra; pose proof (atan_increasing _ _ L); lra end. }
    lra.
Qed.
