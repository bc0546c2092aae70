(** Counterexamples for inverse evaluation (CurveBase.h, PatchBase.h, BSplineBase.h). *)
From Coq Require Import Reals Lra Lia ZArith List Bool.
From Verif Require Import Monad MonadFacts LoopFacts Scalar ScalarFacts Spec SpecFacts SpecGeom ModelCurve ModelBezier ModelBSpline
  ModelPatchBase ModelInverse CurveFacts BSplineMath BSplineFacts BSplineThms BSplineThms2 CurveThms InverseThms.
Import ListNotations.
Local Open Scope R_scope.

(** A curve so far away that the squared distances overflow: the start value 0.0 of the search is returned. *)
Definition far_x : R := IZR (2 ^ 600).
Definition far_point : vec R 1 := (far_x, tt).
Definition far_curve : curve_ops R (vec R 1) :=
  {| c_lower := 1; c_upper := 2; c_eval := fun _ => Ok far_point; c_d1 := fun _ => Ok p0; c_d2 := fun _ => Ok p0 |}.

Lemma newton_stay {d} (c : curve_ops R (vec R d)) p t e d1 d2 lower upper : c_eval c t = Ok e -> c_d1 c t = Ok d1 -> c_d2 c t = Ok d2 ->
  pdot (psub p e) d1 = 0 -> newton_raphson c p t 10 (smul seps (sofZ 100)) lower upper = Ok t.
Proof.
  intros E0 E1 E2 H. unfold newton_raphson, forb_up. change (Z.to_nat (10 - 0)) with 10%nat. cbn [forb_nat]. unfold newton_step at 1.
  rewrite E0, E1, E2, !bind_Ok. cbv zeta. rewrite H. rewrite sabs_R, Rabs_R0. cbn [slt smul sofZ R_ops].
  rewrite Rltb_true; [reflexivity|]. pose proof seps_pos as Hs. change seps with (@seps R R_ops). nra.
Qed.

Lemma far_inverse : approximate_inverse_evaluate far_curve (p0 : vec R 1) 4 1 2 0 = Ok 0.
Proof.
  unfold approximate_inverse_evaluate. change (Z.to_nat 0) with 0%nat. cbn [approx_inverse]. change (0 <? 4)%Z with true. cbn [assert_]. rewrite bind_Ok.
  rewrite ddiv_R by (cbn [sofZ R_ops]; lra). rewrite bind_Ok.
  assert (E : sample_min far_curve (p0 : vec R 1) 4 1 2 = Ok (s0, snummax)).
  { unfold sample_min. destruct (for_up_inv (fun (_ : Z) (st : R * R) => st = (s0, snummax)) 0 (4 + 1)
      (fun i st => let '(min_t, min_dist) := st in
        do r <- ddiv (sofZ i) (sofZ 4);
        let t := (1 + r * (2 - 1)) in
        do q <- c_eval far_curve t;
        let dist := sqnorm (psub (p0 : vec R 1) q) in
        if slt dist min_dist then Ok (t, dist) else Ok (min_t, min_dist)) (s0, snummax)) as (s' & E & ->); [lia|reflexivity| |exact E].
    intros i st Hi ->. rewrite ddiv_R by (cbn [sofZ R_ops]; lra). rewrite bind_Ok. cbn [c_eval far_curve]. cbv zeta. rewrite bind_Ok.
    exists (s0, snummax). split; [|reflexivity]. cbn [slt R_ops]. rewrite Rltb_false; [reflexivity|].
    unfold sqnorm, snummax. change (pdot (psub (p0 : vec R 1) far_point) (psub (p0 : vec R 1) far_point)) with ((0 - far_x) * (0 - far_x) + 0).
    replace ((0 - far_x) * (0 - far_x) + 0) with (far_x * far_x) by ring. unfold far_x.
    rewrite <- mult_IZR. cbn [sofZ R_ops]. apply IZR_le. vm_compute. discriminate. }
  rewrite E, bind_Ok. eapply newton_stay; try reflexivity. apply vdot_0_r.
Qed.

Lemma curve_range_refuted : exists (c : curve_ops R (vec R 1)) p n lower upper r, lower < upper /\ (forall x, exists q, c_eval c x = Ok q) /\
  approximate_inverse_evaluate c p n lower upper 0 = Ok r /\ ~ (lower <= r <= upper).
Proof.
  exists far_curve, p0, 4%Z, 1, 2, 0. split; [lra|]. split; [intros x; eexists; reflexivity|]. split; [exact far_inverse|lra].
Qed.

(** B-splines: an empty range [t, t] is never sampled and the search starts at 0.0. *)
Lemma bspline_inverse_point {d} (b : bspline R (vec R d)) t e d1 d2 :
  valid_bspline (bs_pts b) (bs_knots b) -> bs_periodic b = false ->
  bs_evaluate b 0 = Ok e -> bs_evaluate_derivative b 0 = Ok d1 -> bs_evaluate_2nd_derivative b 0 = Ok d2 ->
  bs_approx_inverse b (bs_ops b (lower_of (bs_pts b) (bs_knots b)) (upper_of (bs_pts b) (bs_knots b))) e t t 0 = Ok 0.
Proof.
  intros Hv Hper E0 E1 E2. pose proof (valid_rep b Hv) as VR. cbv zeta in VR. destruct VR as [Hr Hkv].
  cbn [bs_approx_inverse sle R_ops]. rewrite Rleb_true by lra. cbn [assert_]. rewrite bind_Ok.
  unfold bs_validate. rewrite (rep_degree _ _ _ _ _ Hr). pose proof (rep_p _ _ _ _ _ Hr). destruct (Z.ltb_spec (Z.of_nat (bspline_degree (bs_pts b) (bs_knots b))) 0) as [|_]; [lia|].
  rewrite bind_Ok. destruct (locate_span_total _ _ _ _ _ t Hr Hkv) as (k & Ek & Hk). rewrite Ek, bind_Ok.
  rewrite (rep_lower _ _ _ _ _ Hr), (rep_upper _ _ _ _ _ Hr), !bind_Ok. rewrite Hper. cbv zeta. rewrite bind_Ok.
  rewrite Nat.add_comm. cbn [Nat.add span_walk slt R_ops]. rewrite Rltb_false by lra. rewrite bind_Ok.
  eapply newton_stay; [exact E0|exact E1|exact E2|].
  replace (psub e e) with (p0 : vec R d); [apply vdot_0_l|]. apply vec_ext. intros i Hi. rewrite coord_sub, coord_0 by exact Hi. ring.
Qed.

(** * The flag returned by the Newton iteration for patches *)
(** S(u,v) = (u^3, v) with its derivatives. *)
Definition cube_patch : patch_ops R (vec R 2) :=
  {| s_ulo := 0; s_uhi := 1; s_vlo := 0; s_vhi := 1;
     s_eval := fun u v => Ok ((u ^ 3, (v, tt)) : vec R 2);
     s_du := fun u v => Ok ((3 * u ^ 2, (0, tt)) : vec R 2); s_dv := fun u v => Ok ((0, (1, tt)) : vec R 2);
     s_duu := fun u v => Ok ((6 * u, (0, tt)) : vec R 2); s_dvv := fun u v => Ok ((0, (0, tt)) : vec R 2); s_duv := fun u v => Ok ((0, (0, tt)) : vec R 2) |}.

Definition ntol : R := smul seps (sofZ 100).
Lemma ntol_val : ntol = 100 * / IZR (2 ^ 52).
Proof. unfold ntol. rewrite seps_R. cbn [smul sofZ R_ops]. ring. Qed.
Lemma tol_small : 0 < 100 * / IZR (2 ^ 52) < / 10000000000000.
Proof.
  assert (0 < / IZR (2 ^ 52)) by (apply Rinv_0_lt_compat; apply IZR_lt; reflexivity). split; [lra|].
  apply (Rmult_lt_reg_r (IZR (2 ^ 52))); [apply IZR_lt; reflexivity|]. rewrite Rmult_assoc, Rinv_l by (apply not_0_IZR; discriminate).
  apply (Rmult_lt_reg_l 10000000000000); [lra|]. rewrite <- (Rmult_assoc _ (/ _)), Rinv_r by lra. rewrite Rmult_1_r, Rmult_1_l. rewrite <- mult_IZR. apply IZR_lt. reflexivity.
Qed.
Lemma ntol_small : 0 < ntol < / 10000000000000.
Proof. rewrite ntol_val. exact tol_small. Qed.

Lemma cube_norm x : 0 <= x -> pnorm (psub ((x, (0, tt)) : vec R 2) ((0, (0, tt)) : vec R 2)) = x.
Proof.
  intros H. unfold pnorm, sqnorm. change (pdot (psub ((x, (0, tt)) : vec R 2) ((0, (0, tt)) : vec R 2)) (psub ((x, (0, tt)) : vec R 2) ((0, (0, tt)) : vec R 2)))
    with ((x - 0) * (x - 0) + ((0 - 0) * (0 - 0) + 0)). replace ((x - 0) * (x - 0) + ((0 - 0) * (0 - 0) + 0)) with (Rsqr x) by (unfold Rsqr; ring).
  cbn [ssqrt R_ops]. now apply sqrt_Rsqr.
Qed.

Lemma cube_step u puv pd : 1/100 <= u <= 1 -> (pd = snummax \/ pd = 125/64 * u ^ 3) ->
  patch_newton_step cube_patch ((0, (0, tt)) : vec R 2) ntol 0 1 0 1 (u, 0, puv, pd) = Ok (inl (4/5 * u, 0, (u, 0), u ^ 3)).
Proof.
  intros Hu Hpd. pose proof ntol_small as Ht.
  assert (U3 : 1/1000000 <= u ^ 3) by (replace (1/1000000) with ((1/100)^3) by field; apply pow_incr; lra).
  assert (U5 : 1/10000000000 <= u ^ 5) by (replace (1/10000000000) with ((1/100)^5) by field; apply pow_incr; lra).
  assert (U3' : u ^ 3 <= 1) by (replace 1 with (1 ^ 3) by ring; apply pow_incr; lra).
  assert (U4 : 0 < u ^ 4) by (apply pow_lt; lra).
  assert (Hmax : 2 <= snummax) by (unfold snummax; cbn [sofZ R_ops]; apply IZR_le; vm_compute; discriminate).
  unfold patch_newton_step. cbn [s_eval s_du s_dv s_duu s_dvv s_duv cube_patch]. rewrite bind_Ok, cube_norm by lra. rewrite !sabs_R. cbn [slt ssub R_ops].
  rewrite Rltb_false by lra.
  assert (Hd : ntol <= Rabs (u ^ 3 - pd)).
  { destruct Hpd as [-> | ->]; [rewrite Rabs_left by lra; lra|]. rewrite Rabs_left by nra. nra. }
  rewrite Rltb_false by lra. cbn [orb]. rewrite (Rltb_false pd) by (destruct Hpd; lra).
  rewrite !bind_Ok. cbv zeta.
  set (r := psub ((u ^ 3, (0, tt)) : vec R 2) ((0, (0, tt)) : vec R 2)).
  assert (Er : forall a b, pdot r ((a, (b, tt)) : vec R 2) = u ^ 3 * a) by (intros; change (pdot r ((a, (b, tt)) : vec R 2)) with ((u ^ 3 - 0) * a + ((0 - 0) * b + 0)); ring).
  assert (Er' : forall a b, pdot ((a, (b, tt)) : vec R 2) r = u ^ 3 * a) by (intros; change (pdot ((a, (b, tt)) : vec R 2) r) with (a * (u ^ 3 - 0) + (b * (0 - 0) + 0)); ring).
  assert (Ed : forall a b a' b', pdot ((a, (b, tt)) : vec R 2) ((a', (b', tt)) : vec R 2) = a * a' + b * b') by
    (intros; change (pdot ((a, (b, tt)) : vec R 2) ((a', (b', tt)) : vec R 2)) with (a * a' + (b * b' + 0)); ring).
  unfold sqnorm. rewrite !Er, !Er', !Ed, !sabs_R. cbn [slt R_ops]. rewrite (Rltb_false (Rabs (u ^ 3 * (3 * u ^ 2)))).
  2:{ replace (u ^ 3 * (3 * u ^ 2)) with (3 * u ^ 5) by ring. rewrite Rabs_right by lra. lra. }
  cbn [andb]. rewrite ?bind_Ok. cbn [smul sadd ssub sopp sle s0 R_ops].
  match goal with |- context [Rleb ?x 0] => assert (Edet : x = 15 * u ^ 4) by ring end. rewrite Edet. rewrite Rleb_false by lra.
  rewrite !ddiv_R by lra. rewrite !bind_Ok.
  match goal with |- context [Rltb (u + ?x) 0] => assert (Ex : u + x = 4/5 * u) by (field; apply Rgt_not_eq; lra) end. rewrite Ex.
  match goal with |- context [Rltb (0 + ?x) 0] => assert (Ey : 0 + x = 0) by (field; apply Rgt_not_eq; lra) end. rewrite Ey.
  rewrite !Rltb_false by (rewrite ?Rltb_false by lra; lra). reflexivity.
Qed.

Lemma p45 n : (n <= 20)%nat -> 1/100 <= (4/5) ^ n <= 1.
Proof.
  intros H. split.
  - apply Rle_trans with ((4/5) ^ 20); [simpl; lra|]. replace 20%nat with (n + (20 - n))%nat at 1 by lia. rewrite pow_add.
    assert (0 < (4/5) ^ n) by (apply pow_lt; lra). assert ((4/5) ^ (20 - n) <= 1) by (rewrite <- (pow1 (20 - n)); apply pow_incr; lra). nra.
  - rewrite <- (pow1 n). apply pow_incr. lra.
Qed.

Lemma cube_newton : patch_newton_raphson cube_patch ((0, (0, tt)) : vec R 2) (1, 0) 20 ntol 0 1 0 1 = Ok (((4/5) ^ 20, 0), true).
Proof.
  unfold patch_newton_raphson. cbn [fst snd].
  destruct (forb_up_inv (B := (R * R) * bool) (fun i (st : R * R * (R * R) * R) => exists puv pd, st = ((4/5) ^ Z.to_nat i, 0, puv, pd) /\
      (pd = snummax \/ pd = 125/64 * ((4/5) ^ Z.to_nat i) ^ 3)) (fun _ => False) 0 20
      (fun _ st => patch_newton_step cube_patch ((0, (0, tt)) : vec R 2) ntol 0 1 0 1 st) (1, 0, (1, 0), snummax)) as (x & E & H).
  - lia.
  - exists (1, 0), snummax. split; [reflexivity|left; reflexivity].
  - intros i st Hi (puv & pd & -> & Hpd). eexists. split; [apply cube_step; [apply p45; lia|exact Hpd]|]. cbv beta iota.
    exists ((4/5) ^ Z.to_nat i, 0), (((4/5) ^ Z.to_nat i) ^ 3). replace (Z.to_nat (i + 1)) with (S (Z.to_nat i)) by lia. cbn [pow]. split; [reflexivity|]. right.
    field.
  - rewrite E, bind_Ok. destruct x as [st|y]; [|contradiction]. destruct H as (puv & pd & -> & _). reflexivity.
Qed.

(** True is returned although none of the stopping criteria holds at the result. *)
Lemma newton_flag_refuted : exists (s : patch_ops R (vec R 2)) (p : vec R 2) uv r e su sv,
  patch_inverse_guess s p (fst uv) (snd uv) 0 1 0 1 20 (smul seps (sofZ 100)) = Ok (r, true) /\
  s_eval s (fst r) (snd r) = Ok e /\ s_du s (fst r) (snd r) = Ok su /\ s_dv s (fst r) (snd r) = Ok sv /\
  let tol := 100 * / IZR (2 ^ 52) in
  0 < fst r < 1 /\ 1000000 * tol < edist e p /\ 1000 * tol < Rabs (inner su (psub e p)).
Proof.
  exists cube_patch, ((0, (0, tt)) : vec R 2), (1, 0), ((4/5) ^ 20, 0), (((4/5) ^ 20) ^ 3, (0, tt)), (3 * ((4/5) ^ 20) ^ 2, (0, tt)), (0, (1, tt)).
  split.
  { apply patch_guess_newton; [lra|lra|]. cbn [fst snd]. rewrite !smax_R, !smin_R. rewrite (Rmin_left 1 1), (Rmax_right 0 1), (Rmin_right 1 0), (Rmax_left 0 0) by lra. exact cube_newton. }
  split; [reflexivity|]. split; [reflexivity|]. split; [reflexivity|]. cbv zeta. cbn [fst snd].
  pose proof (p45 20 (le_n 20)) as Hu. assert (Hu1 : (4/5) ^ 20 < 1) by (simpl; lra). set (u := (4/5) ^ 20) in *.
  pose proof tol_small as T.
  assert (U3 : 1/1000000 <= u ^ 3) by (replace (1/1000000) with ((1/100)^3) by field; apply pow_incr; lra).
  assert (U5 : 1/10000000000 <= u ^ 5) by (replace (1/10000000000) with ((1/100)^5) by field; apply pow_incr; lra).
  split; [lra|]. split.
  - rewrite <- pnorm_edist, cube_norm by lra. lra.
  - rewrite <- inner_pdot. change (pdot ((3 * u ^ 2, (0, tt)) : vec R 2) (psub ((u ^ 3, (0, tt)) : vec R 2) ((0, (0, tt)) : vec R 2))) with (3 * u ^ 2 * (u ^ 3 - 0) + (0 * (0 - 0) + 0)).
    replace (3 * u ^ 2 * (u ^ 3 - 0) + (0 * (0 - 0) + 0)) with (3 * u ^ 5) by ring. rewrite Rabs_right by lra. lra.
Qed.
