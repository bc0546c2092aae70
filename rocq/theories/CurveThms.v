(** Closedness, curvature, parameter clipping, range of inverse evaluation (CurveBase.h, PatchBase.h). *)
From Coq Require Import Reals Lra Lia ZArith List Bool.
From Verif Require Import Monad MonadFacts Scalar ScalarFacts Spec SpecFacts SpecGeom ModelCurve ModelPatchBase CurveFacts.
Import ListNotations.
Local Open Scope R_scope.

Lemma Rdiv_le_0_compat a b : 0 <= a -> 0 < b -> 0 <= a / b.
Proof. intros Ha Hb. apply Rmult_le_pos; [exact Ha|]. left. now apply Rinv_0_lt_compat. Qed.

Lemma inner_pdot d (a b : vec R d) : pdot a b = inner a b.
Proof.
  unfold inner. cbn [pdot vec_ops]. induction d as [|d IH]; [reflexivity|]. destruct a as [x a], b as [y b].
  cbn [vdot fst snd]. rewrite rsum_shift, IH. reflexivity.
Qed.
Lemma sqnorm_edist d (a b : vec R d) : sqnorm (psub a b) = edist a b ^ 2.
Proof.
  unfold sqnorm, edist. rewrite <- Rsqr_pow2, Rsqr_sqrt by (apply rsum_nonneg; intros; apply pow2_ge_0).
  rewrite inner_pdot. apply rsum_ext. intros i Hi. rewrite coord_sub by exact Hi. ring.
Qed.
Lemma edist_pos d (a b : vec R d) : 0 <= edist a b.
Proof. apply sqrt_pos. Qed.
Lemma pnorm_edist d (a b : vec R d) : pnorm (psub a b) = edist a b.
Proof.
  unfold pnorm. rewrite sqnorm_edist. cbn [ssqrt R_ops]. rewrite <- Rsqr_pow2. apply sqrt_Rsqr, edist_pos.
Qed.

Lemma Rltb_iff x y : Rltb x y = true <-> x < y.
Proof. destruct (Rltb_spec x y); split; intros; [assumption|reflexivity|discriminate|lra]. Qed.

(** ** is_closed *)
Lemma curve_is_closed d (c : curve_ops R (vec R d)) order tol a0 b0 a1 b1 a2 b2 :
  c_eval c (c_lower c) = Ok a0 -> c_eval c (c_upper c) = Ok b0 ->
  c_d1 c (c_lower c) = Ok a1 -> c_d1 c (c_upper c) = Ok b1 ->
  c_d2 c (c_lower c) = Ok a2 -> c_d2 c (c_upper c) = Ok b2 ->
  exists r, is_closed c order tol = Ok r /\
    (r = true <-> edist a0 b0 < tol /\ ((1 <= order)%Z -> edist a1 b1 < tol) /\ ((2 <= order)%Z -> edist a2 b2 < tol)).
Proof.
  intros E1 E2 E3 E4 E5 E6. unfold is_closed. rewrite E1, E2, !bind_Ok, !pnorm_edist. cbn [slt R_ops].
  destruct (Z.leb_spec 1 order); destruct (Z.leb_spec 2 order);
    repeat (rewrite ?E3, ?E4, ?E5, ?E6, ?bind_Ok, ?pnorm_edist); cbn [slt R_ops]; eexists; (split; [reflexivity|]);
    rewrite ?andb_true_iff, ?Rltb_iff; intuition lia.
Qed.

(** ** Curvature *)
Lemma curve_curvature d (c : curve_ops R (vec R d)) t d1 d2 : c_d1 c t = Ok d1 -> c_d2 c t = Ok d2 ->
  (d1 = p0 -> evaluate_curvature c t = Ok p0) /\
  (d1 <> p0 -> exists k, evaluate_curvature c t = Ok k /\ inner k d1 = 0 /\
     inner k k * inner d1 d1 ^ 3 = inner d1 d1 * inner d2 d2 - inner d1 d2 ^ 2 /\
     (forall i, (i < d)%nat -> coord d i d2 = coord d i (pmul (inner d1 d1) k) + inner d1 d2 / inner d1 d1 * coord d i d1)).
Proof.
  intros E1 E2. unfold evaluate_curvature. rewrite E1, E2, !bind_Ok. unfold sqnorm, pdivs. cbn [seq_ s0 R_ops]. split.
  - intros ->. rewrite vdot_0_l. rewrite Reqb_true by reflexivity. reflexivity.
  - intros Hn. assert (Hs : pdot d1 d1 <> 0) by (intros E; apply Hn; now apply vdot_zero).
    rewrite !Reqb_false by exact Hs. rewrite !bind_Ok. eexists. split; [reflexivity|]. rewrite <- !inner_pdot.
    cbn [sdiv s1 R_ops].
    set (A := pdot d1 d1) in *. set (B := pdot d1 d2). set (D := pdot d2 d2).
    assert (Hc : pdot d2 d1 = B) by apply vdot_comm.
    split; [|split].
    + rewrite vdot_mul_l, vdot_sub_l, !vdot_mul_l, Hc. fold A. field. exact Hs.
    + rewrite vdot_mul_l, vdot_mul_r, vdot_sub_l, !vdot_sub_r, !vdot_mul_l, !vdot_mul_r, Hc. fold A B D. field. exact Hs.
    + intros i Hi. rewrite !coord_mul, coord_sub, !coord_mul by exact Hi. field. exact Hs.
Qed.

(** The same vector for another parametrisation: velocity a*d1, acceleration a^2*d2 + b*d1. *)
Lemma curve_curvature_speed d (c c' : curve_ops R (vec R d)) t t' d1 d2 a b : a <> 0 ->
  c_d1 c t = Ok d1 -> c_d2 c t = Ok d2 ->
  c_d1 c' t' = Ok (pmul a d1) -> c_d2 c' t' = Ok (padd (pmul (a * a) d2) (pmul b d1)) ->
  evaluate_curvature c' t' = evaluate_curvature c t.
Proof.
  intros Ha E1 E2 F1 F2. unfold evaluate_curvature. rewrite E1, E2, F1, F2, !bind_Ok. unfold sqnorm, pdivs. cbn [seq_ s0 R_ops].
  rewrite vdot_mul_l, vdot_mul_r, vdot_add_r, !vdot_mul_l, !vdot_mul_r. cbn [smul R_ops sdiv s1].
  destruct (Req_EM_T (pdot d1 d1) 0) as [E|Hn].
  - rewrite E, !Rmult_0_r. rewrite Reqb_true by reflexivity. reflexivity.
  - assert (a * (a * pdot d1 d1) <> 0) by (intros E; apply Rmult_integral in E as [E|E]; [lra|apply Rmult_integral in E; lra]).
    rewrite !Reqb_false by assumption. rewrite !bind_Ok. f_equal. apply vec_ext. intros i Hi.
    repeat (rewrite ?coord_mul, ?coord_sub, ?coord_add by exact Hi). field. split; assumption.
Qed.

Lemma inner_cross2 (a b : vec R 2) : inner a a * inner b b - inner a b ^ 2 =
  (coord 2 0 a * coord 2 1 b - coord 2 1 a * coord 2 0 b) ^ 2.
Proof. unfold inner, rsum. cbn [psum padd p0 scal_point_ops sadd s0 R_ops]. ring. Qed.
Lemma inner_cross3 (a b : vec R 3) : inner a a * inner b b - inner a b ^ 2 =
  (coord 3 1 a * coord 3 2 b - coord 3 2 a * coord 3 1 b) ^ 2 +
  (coord 3 2 a * coord 3 0 b - coord 3 0 a * coord 3 2 b) ^ 2 +
  (coord 3 0 a * coord 3 1 b - coord 3 1 a * coord 3 0 b) ^ 2.
Proof. unfold inner, rsum. cbn [psum padd p0 scal_point_ops sadd s0 R_ops]. ring. Qed.

Lemma curve_curvature_2d (c : curve_ops R (vec R 2)) t x' y' x'' y'' :
  c_d1 c t = Ok (x', (y', tt)) -> c_d2 c t = Ok (x'', (y'', tt)) -> (x' <> 0 \/ y' <> 0) ->
  exists k, evaluate_curvature c t = Ok k /\ inner k (x', (y', tt)) = 0 /\
    edist k p0 = Rabs (x' * y'' - y' * x'') / sqrt (x' ^ 2 + y' ^ 2) ^ 3.
Proof.
  intros E1 E2 Hn. destruct (curve_curvature 2 c t _ _ E1 E2) as [_ H].
  destruct H as (k & E & H0 & H1 & _).
  { intros E. injection E as -> ->. destruct Hn; cbn in *; lra. }
  exists k. split; [exact E|]. split; [exact H0|].
  rewrite inner_cross2 in H1. cbn [coord fst snd] in H1.
  assert (Ek : edist k p0 ^ 2 = inner k k).
  { rewrite <- sqnorm_edist. unfold sqnorm. rewrite vdot_sub_l, !vdot_sub_r, !vdot_0_r, vdot_0_l, inner_pdot. ring. }
  assert (Hp : 0 < x' ^ 2 + y' ^ 2) by (pose proof (pow2_ge_0 x'); pose proof (pow2_ge_0 y'); destruct Hn; nra).
  assert (Ei2 : inner ((x', (y', tt)) : vec R 2) ((x', (y', tt)) : vec R 2) = x' ^ 2 + y' ^ 2) by
    (unfold inner, rsum; cbn [psum padd p0 scal_point_ops sadd s0 R_ops coord fst snd]; ring).
  rewrite Ei2, <- Ek in H1.
  set (w := x' ^ 2 + y' ^ 2) in *. assert (Hw : 0 < sqrt w) by (now apply sqrt_lt_R0).
  assert (Ew : w = sqrt w ^ 2) by (rewrite <- Rsqr_pow2, Rsqr_sqrt; lra).
  apply Rsqr_inj; [apply edist_pos|apply Rdiv_le_0_compat; [apply Rabs_pos|now apply pow_lt]|].
  rewrite !Rsqr_pow2. unfold Rdiv. rewrite Rpow_mult_distr, pow2_abs, pow_inv.
  rewrite <- H1. rewrite Ew at 1. field. lra.
Qed.

(** ** Clipping to a periodic range *)
Lemma clip_step (t t_min period : R) : 0 < period ->
  exists k : Z, (if Rltb t t_min then do q <- ddiv (t_min - t) period; Ok (t + IZR (sceil q) * period)
     else do f <- sfmod (t - t_min) period; Ok (t_min + f)) = Ok (t + IZR k * period) /\
    t_min <= t + IZR k * period < t_min + period.
Proof.
  intros Hp. destruct (Rltb_spec t t_min) as [H|H].
  - rewrite ddiv_R by lra. rewrite bind_Ok. set (q := (t_min - t) / period).
    assert (Eq : q * period = t_min - t) by (unfold q; field; lra).
    exists (sceil q). split; [reflexivity|]. unfold sceil. rewrite opp_IZR. pose proof (sfloor_R (- q)) as Hf. cbn [sopp R_ops].
    change (sfloor (- q)) with (sfloor (- q)). split; nra.
  - destruct (sfmod_R (t - t_min) period Hp) as (k & E & Hk & _). rewrite E, bind_Ok. specialize (Hk ltac:(lra)).
    exists (- k)%Z. rewrite opp_IZR. split; [f_equal; ring|]. lra.
Qed.

Lemma patch_clip t t_min t_max period : 0 < period -> t_min <= t_max ->
  exists r, clip_periodic_parameter t t_min t_max period = Ok r /\ t_min <= r <= t_max /\
    ((exists k : Z, t_min <= t + IZR k * period <= t_max) -> exists k : Z, r = t + IZR k * period) /\
    (exists k : Z, forall x (j : Z), t_min <= x <= t_max ->
       Rabs (r - (t + IZR k * period)) <= Rabs (x - (t + IZR j * period))).
Proof.
  intros Hp Hr. unfold clip_periodic_parameter. cbn [slt ssub sadd smul sofZ sle R_ops].
  destruct (clip_step t t_min period Hp) as (k & E & Hk). cbn [ssub sadd smul sofZ R_ops] in E. rewrite E, bind_Ok. set (u := t + IZR k * period) in *.
  rewrite Rleb_true by lra. cbn [assert_ bind].
  assert (Step : forall j : Z, t + IZR j * period = u + IZR (j - k) * period) by (intros j; unfold u; rewrite minus_IZR; ring).
  assert (Far : forall j : Z, u <= t + IZR j * period \/ t + IZR j * period <= u - period).
  { intros j. rewrite Step. destruct (Z_le_gt_dec 0 (j - k)) as [H|H].
    - left. apply IZR_le in H. nra.
    - right. assert (H' : IZR (j - k) <= IZR (-1)) by (apply IZR_le; lia). simpl in H'. nra. }
  destruct (Rltb_spec t_max u) as [Hu|Hu].
  - assert (Hno : ~ exists j : Z, t_min <= t + IZR j * period <= t_max).
    { intros [j Hj]. destruct (Far j); lra. }
    destruct (Rltb_spec (period - (u - t_min)) (u - t_max)) as [Hd|Hd]; rewrite Rleb_true by lra; cbn [assert_ bind].
    + exists t_min. split; [reflexivity|]. split; [lra|]. split; [intros X; contradiction|].
      exists (k - 1)%Z. intros x j Hx. replace (t + IZR (k - 1) * period) with (u - period) by (unfold u; rewrite minus_IZR; ring).
      rewrite (Rabs_right (t_min - _)) by lra. destruct (Far j).
      * rewrite Rabs_left1 by lra. lra.
      * rewrite Rabs_right by lra. lra.
    + exists t_max. split; [reflexivity|]. split; [lra|]. split; [intros X; contradiction|].
      exists k. fold u. intros x j Hx. rewrite (Rabs_left1 (t_max - u)) by lra. destruct (Far j).
      * rewrite Rabs_left1 by lra. lra.
      * rewrite Rabs_right by lra. lra.
  - rewrite Rleb_true by lra. cbn [assert_ bind]. exists u. split; [reflexivity|]. split; [lra|]. split; [intros _; now exists k|].
    exists k. fold u. intros x j Hx. replace (u - u) with 0 by ring. rewrite Rabs_R0. apply Rabs_pos.
Qed.

(** ** Range of inverse evaluation, curves *)
Lemma newton_range {d} (c : curve_ops R (vec R d)) p t n tol lower upper r : lower <= t <= upper ->
  newton_raphson c p t n tol lower upper = Ok r -> lower <= r <= upper.
Proof.
  intros Ht E. unfold newton_raphson in E. apply bind_inv in E. destruct E as (x & E & Ex). unfold forb_up in E.
  assert (H : match x with inl s' => (lower <= fst (fst s') <= upper /\ lower <= snd (fst s') <= upper) | inr b => lower <= b <= upper end).
  { eapply (forb_nat_post (fun st : R * R * R => lower <= fst (fst st) <= upper /\ lower <= snd (fst st) <= upper)); [| |exact E].
    - cbn. lra.
    - intros _ [[a b] e] y [Ha Hb] Ey. cbn [fst snd] in *. unfold newton_step in Ey.
      repeat (apply bind_inv in Ey; destruct Ey as (? & _ & Ey)).
      destruct (slt _ tol); [injection Ey as <-; lra|].
      destruct (_ && _); [injection Ey as <-; lra|].
      apply bind_inv in Ey; destruct Ey as (q & _ & Ey). cbn [sle ssub R_ops] in Ey.
      destruct (Rleb_spec (a - q) lower); [injection Ey as <-; lra|].
      destruct (Rleb_spec upper (a - q)); [injection Ey as <-; lra|]. injection Ey as <-. cbn. lra. }
  destruct x as [[[a b] e]|b]; injection Ex as <-; cbn in H; lra.
Qed.

Lemma sample_min_range {d} (c : curve_ops R (vec R d)) p n lower upper mt md : (0 < n)%Z -> lower <= upper ->
  (forall x q, lower <= x <= upper -> c_eval c x = Ok q -> edist p q ^ 2 < snummax) ->
  sample_min c p n lower upper = Ok (mt, md) -> lower <= mt <= upper.
Proof.
  intros Hn Hl Hc E. unfold sample_min, for_up in E. replace (Z.to_nat (n + 1 - 0)) with (S (Z.to_nat n)) in E by lia.
  cbn [for_nat] in E. apply bind_inv in E. destruct E as ([mt0 md0] & E0 & E).
  assert (Hs : forall i, (0 <= i <= n)%Z -> lower <= lower + IZR i / IZR n * (upper - lower) <= upper).
  { intros i Hi. assert (0 < IZR n) by (now apply IZR_lt). assert (0 <= IZR i) by (apply IZR_le; lia). assert (IZR i <= IZR n) by (apply IZR_le; lia).
    assert (0 <= IZR i / IZR n) by (apply Rdiv_le_0_compat; assumption).
    assert (IZR i / IZR n <= 1) by (apply (Rmult_le_reg_r (IZR n)); [assumption|]; unfold Rdiv; rewrite Rmult_assoc, Rinv_l; lra).
    nra. }
  assert (H0 : lower <= mt0 <= upper).
  { apply bind_inv in E0. destruct E0 as (r & Er & E0). apply bind_inv in E0. destruct E0 as (q & Eq & E0).
    cbn [sofZ R_ops sadd smul ssub] in *. assert (IZR n <> 0) by (apply not_0_IZR; lia). rewrite ddiv_R in Er by assumption. injection Er as <-.
    specialize (Hs 0%Z ltac:(lia)). rewrite sqnorm_edist in E0. cbn [slt R_ops] in E0. rewrite Rltb_true in E0 by (eapply Hc; [|exact Eq]; exact Hs).
    injection E0 as <- <-. exact Hs. }
  revert E. intros E. change mt with (fst (mt, md)).
  refine (for_nat_post (fun st : R * R => lower <= fst st <= upper) _ _ _ (mt0, md0) _ H0 _ E).
  intros i [a b] [a' b'] Hi Ha Eb. cbn [fst] in *. apply bind_inv in Eb. destruct Eb as (r & Er & Eb). apply bind_inv in Eb. destruct Eb as (q & Eq & Eb).
  cbn [sofZ R_ops sadd smul ssub] in *. assert (IZR n <> 0) by (apply not_0_IZR; lia). rewrite ddiv_R in Er by assumption. injection Er as <-.
  destruct (slt _ b); injection Eb as <- <-; [apply Hs; lia|exact Ha].
Qed.

Lemma clamp_range lower upper x : lower <= upper -> lower <= smin (smax x lower) upper <= upper.
Proof.
  intros H. rewrite smin_R, smax_R. unfold Rmin, Rmax. destruct (Rle_dec x lower); destruct (Rle_dec _ upper); lra.
Qed.
Lemma clamp_mono lower upper x y : x <= y -> smin (smax x lower) upper <= smin (smax y lower) upper.
Proof.
  intros H. rewrite !smin_R, !smax_R. unfold Rmin, Rmax. destruct (Rle_dec x lower), (Rle_dec y lower); repeat destruct (Rle_dec _ upper); lra.
Qed.

Lemma curve_inverse_range d (c : curve_ops R (vec R d)) p n lower upper level r : lower <= upper ->
  (forall x q, lower <= x <= upper -> c_eval c x = Ok q -> edist p q ^ 2 < snummax) ->
  approximate_inverse_evaluate c p n lower upper level = Ok r -> lower <= r <= upper.
Proof.
  intros Hl Hc. unfold approximate_inverse_evaluate. generalize (Z.to_nat level). intros l. clear level.
  revert lower upper Hl Hc. induction l as [|l IH]; intros lower upper Hl Hc E; cbn [approx_inverse] in E;
    (destruct (Z.ltb_spec 0 n) as [Hn|]; [|discriminate]); cbn [assert_ bind] in E;
    apply bind_inv in E; destruct E as (dt & Ed & E); apply bind_inv in E; destruct E as ([mt md] & Es & E);
    pose proof (sample_min_range c p n lower upper mt md Hn Hl Hc Es) as Hm.
  - eapply newton_range; eauto.
  - cbn [ssub sadd R_ops] in *. pose proof (clamp_range lower upper (mt - dt) Hl). pose proof (clamp_range lower upper (mt + dt) Hl).
    assert (Hd : 0 <= dt).
    { assert (0 < IZR n) by (now apply IZR_lt). cbn [sofZ R_ops] in Ed. rewrite ddiv_R in Ed by lra. injection Ed as <-. apply Rdiv_le_0_compat; lra. }
    pose proof (clamp_mono lower upper (mt - dt) (mt + dt) ltac:(lra)).
    apply IH in E; [lra|assumption|]. intros x q Hx. apply Hc. lra.
Qed.

(** ** Range of inverse evaluation, patches *)
Definition inr_ (a b x : R) : Prop := a <= x <= b.
Definition inr2 (a b c e : R) (x : R * R) : Prop := a <= fst x <= b /\ c <= snd x <= e.

Lemma clampR (a b u : R) : a <= b -> a <= (if Rltb b (if Rltb u a then a else u) then b else (if Rltb u a then a else u)) <= b.
Proof. intros H. destruct (Rltb_spec u a); [destruct (Rltb_spec b a)|destruct (Rltb_spec b u)]; lra. Qed.
Lemma patch_newton_range {d} (s : patch_ops R (vec R d)) p uv n tol a b c e r : a <= b -> c <= e -> inr2 a b c e uv ->
  patch_newton_raphson s p uv n tol a b c e = Ok r -> inr2 a b c e (fst r).
Proof.
  intros Hab Hce H0 E. unfold patch_newton_raphson in E. apply bind_inv in E. destruct E as (x & E & Ex). unfold forb_up in E.
  assert (H : match x with inl s' => inr2 a b c e (fst (fst s')) | inr y => inr2 a b c e (fst y) end).
  { eapply (forb_nat_post (fun st : R * R * (R * R) * R => inr2 a b c e (fst (fst st)) /\ inr2 a b c e (snd (fst st))) (fun y : (R * R) * bool => inr2 a b c e (fst y))) in E.
    - destruct x; [exact (proj1 E)|exact E].
    - cbn. split; exact H0.
    - intros _ [[[u v] puv] pd] y [Ha Hb] Ey. cbn [fst snd] in *. unfold patch_newton_step in Ey.
      apply bind_inv in Ey; destruct Ey as (? & _ & Ey).
      destruct (_ || _); [injection Ey as <-; exact Ha|].
      destruct (slt pd _); [injection Ey as <-; exact Hb|].
      apply bind_inv in Ey; destruct Ey as (? & _ & Ey). apply bind_inv in Ey; destruct Ey as (? & _ & Ey).
      destruct (_ && _); [injection Ey as <-; exact Ha|].
      do 3 (apply bind_inv in Ey; destruct Ey as (? & _ & Ey)).
      destruct (sle _ s0); [injection Ey as <-; exact Ha|].
      apply bind_inv in Ey; destruct Ey as (d0 & _ & Ey). apply bind_inv in Ey; destruct Ey as (d1 & _ & Ey).
      injection Ey as <-. cbn [fst snd]. split; [|exact Ha]. cbn [sadd slt R_ops]. unfold inr2. cbn [fst snd].
      split; now apply clampR. }
  destruct x as [[[[u v] puv] pd]|y]; injection Ex as <-; exact H.
Qed.

Lemma clamp2 (a b x : R) : a <= b -> a <= smax a (smin b x) <= b.
Proof. intros H. rewrite smax_R, smin_R. unfold Rmin, Rmax. destruct (Rle_dec b x); destruct (Rle_dec a _); lra. Qed.

Lemma patch_guess_newton {d} (s : patch_ops R (vec R d)) p u v a b c e n tol r : a <= b -> c <= e ->
  patch_newton_raphson s p (smax a (smin b u), smax c (smin e v)) n tol a b c e = Ok r ->
  patch_inverse_guess s p u v a b c e n tol = Ok r.
Proof.
  intros Hab Hce E.
  assert (H : inr2 a b c e (fst r)) by (eapply (patch_newton_range s p (smax a (smin b u), smax c (smin e v))); eauto; split; now apply clamp2).
  unfold patch_inverse_guess. rewrite E, bind_Ok. destruct r as [[x y] f]. destruct H as [H1 H2]. cbn [fst snd] in *. cbn [sle R_ops].
  rewrite !Rleb_true by lra. reflexivity.
Qed.

Lemma patch_guess_range d (s : patch_ops R (vec R d)) p u v a b c e n tol r f : a <= b -> c <= e ->
  patch_inverse_guess s p u v a b c e n tol = Ok (r, f) -> (a <= fst r <= b) /\ (c <= snd r <= e).
Proof.
  intros Hab Hce E. unfold patch_inverse_guess in E. apply bind_inv in E. destruct E as ([x g] & E & Ex).
  apply patch_newton_range in E; [|assumption|assumption|split; now apply clamp2].
  apply bind_inv in Ex. destruct Ex as (_ & _ & Ex). apply bind_inv in Ex. destruct Ex as (_ & _ & Ex). injection Ex as <- <-. exact E.
Qed.

Lemma grid_sample_range (lo hi x : R) n i : (0 < n)%Z -> (0 <= i < n + 1)%Z -> lo <= hi -> grid_sample lo hi n i = Ok x -> lo <= x <= hi.
Proof.
  intros Hn Hi Hl E. unfold grid_sample in E. destruct (Z.eqb_spec i n); [injection E as <-; lra|].
  apply bind_inv in E. destruct E as (q & Eq & E). injection E as <-. cbn [sofZ smul ssub sadd R_ops] in *.
  assert (0 < IZR n) by (now apply IZR_lt). rewrite ddiv_R in Eq by lra. injection Eq as <-.
  assert (0 <= IZR i) by (apply IZR_le; lia). assert (IZR i <= IZR n) by (apply IZR_le; lia).
  assert (0 <= IZR i * (hi - lo) / IZR n) by (apply Rdiv_le_0_compat; nra).
  assert (IZR i * (hi - lo) / IZR n <= hi - lo).
  { apply (Rmult_le_reg_r (IZR n)); [assumption|]. unfold Rdiv. rewrite Rmult_assoc, Rinv_l by lra. nra. }
  lra.
Qed.

Lemma patch_sample_range {d} (s : patch_ops R (vec R d)) p nu nv a b c e r : (0 < nu)%Z -> (0 < nv)%Z -> a <= b -> c <= e ->
  patch_sample_min s p nu nv a b c e = Ok r -> inr2 a b c e (fst (fst (fst r))) /\ inr2 a b c e (snd (fst r)).
Proof.
  intros Hnu Hnv Hab Hce E. unfold patch_sample_min in E.
  eapply (for_up_post (fun st : (R * R) * R * (R * R) * R => inr2 a b c e (fst (fst (fst st))) /\ inr2 a b c e (snd (fst st)))); [| |exact E].
  - unfold inr2. cbn. lra.
  - intros i st st' Hi Hst E1. apply bind_inv in E1. destruct E1 as (u & Eu & E1). apply grid_sample_range in Eu; [|assumption..].
    refine (for_up_post (fun st : (R * R) * R * (R * R) * R => inr2 a b c e (fst (fst (fst st))) /\ inr2 a b c e (snd (fst st))) _ _ _ _ _ Hst _ E1). clear st st' Hst E1.
    intros j [[[uv md] uv2] md2] st' Hj [H1 H2] E1. cbn [fst snd] in *. apply bind_inv in E1. destruct E1 as (v & Ev & E1). apply grid_sample_range in Ev; [|assumption..].
    apply bind_inv in E1. destruct E1 as (q & _ & E1).
    destruct (slt _ md); [injection E1 as <-; cbn; unfold inr2; cbn; auto|].
    destruct (slt _ md2); injection E1 as <-; cbn; unfold inr2; cbn; auto.
Qed.

Lemma patch_approx_range d (s : patch_ops R (vec R d)) p nu nv a b c e level r : (0 < nu)%Z -> (0 < nv)%Z -> a <= b -> c <= e ->
  patch_approx_inverse s p nu nv a b c e level = Ok r -> inr2 a b c e r.
Proof.
  intros Hnu Hnv. revert a b c e r. induction level as [|l IH]; intros a b c e r Hab Hce E; cbn [patch_approx_inverse] in E;
    apply bind_inv in E; destruct E as ([[[uv md] uv2] md2] & Es & E); destruct (patch_sample_range s p nu nv a b c e _ Hnu Hnv Hab Hce Es) as [H1 H2]; cbn [fst snd] in H1, H2.
  - injection E as <-. exact H1.
  - assert (Sub : forall (x y : R * R), inr2 a b c e x ->
      (do delta_u <- ddiv (ssub b a) (sofZ nu); do delta_v <- ddiv (ssub e c) (sofZ nv);
       patch_approx_inverse s p nu nv (smax (ssub (fst x) delta_u) a) (smin (sadd (fst x) delta_u) b)
         (smax (ssub (snd x) delta_v) c) (smin (sadd (snd x) delta_v) e) l) = Ok y -> inr2 a b c e y).
    { intros x y [X1 X2] Ey. apply bind_inv in Ey. destruct Ey as (du & Eu & Ey). apply bind_inv in Ey. destruct Ey as (dv & Ev & Ey).
      assert (0 < IZR nu) by (now apply IZR_lt). assert (0 < IZR nv) by (now apply IZR_lt). cbn [sofZ ssub sadd R_ops] in *.
      rewrite ddiv_R in Eu by lra. rewrite ddiv_R in Ev by lra. injection Eu as Eu. injection Ev as Ev.
      assert (0 <= du) by (rewrite <- Eu; apply Rdiv_le_0_compat; lra). assert (0 <= dv) by (rewrite <- Ev; apply Rdiv_le_0_compat; lra).
      rewrite !smax_R, !smin_R in Ey.
      assert (K : forall t w lo hi, 0 <= w -> lo <= t <= hi -> lo <= Rmax (t - w) lo /\ Rmax (t - w) lo <= Rmin (t + w) hi /\ Rmin (t + w) hi <= hi).
      { intros t w lo hi Hw Ht. unfold Rmax, Rmin. destruct (Rle_dec _ lo); destruct (Rle_dec _ hi); lra. }
      destruct (K (fst x) du a b) as (K1 & K2 & K3); [assumption..|]. destruct (K (snd x) dv c e) as (K4 & K5 & K6); [assumption..|].
      apply IH in Ey; [|assumption..]. destruct Ey as [Y1 Y2]. split; lra. }
    destruct (_ || _).
    + eapply Sub; [exact H1|exact E].
    + apply bind_inv in E. destruct E as (c1 & E1 & E). apply bind_inv in E. destruct E as (c2 & E2 & E).
      apply Sub in E1; [|exact H1]. apply Sub in E2; [|exact H2].
      apply bind_inv in E. destruct E as (? & _ & E). apply bind_inv in E. destruct E as (? & _ & E). injection E as <-.
      match goal with |- context [if ?b then _ else _] => destruct b end; assumption.
Qed.

Lemma bind_guess_range d (s : patch_ops R (vec R d)) p a b c e n tol (x : res (R * R)) r f : a <= b -> c <= e ->
  (do uv <- x; patch_inverse_guess s p (fst uv) (snd uv) a b c e n tol) = Ok (r, f) -> (a <= fst r <= b) /\ (c <= snd r <= e).
Proof.
  intros Hab Hce E. apply bind_inv in E. destruct E as (uv & _ & E).
  exact (patch_guess_range d s p (fst uv) (snd uv) a b c e n tol r f Hab Hce E).
Qed.

Lemma patch_inverse_range d (s : patch_ops R (vec R d)) p nu nv a b c e r f : a <= b -> c <= e ->
  patch_inverse_evaluate s p nu nv a b c e = Ok (r, f) -> (a <= fst r <= b) /\ (c <= snd r <= e).
Proof.
  intros Hab Hce. unfold patch_inverse_evaluate. intros E. exact (bind_guess_range _ _ _ _ _ _ _ _ _ _ _ _ Hab Hce E).
Qed.
