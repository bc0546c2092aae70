(** Facts about cos, sin, atan2 and angles modulo 2 pi. *)
From Coq Require Import Reals Lra Lia ZArith Psatz.
From Verif Require Import Monad MonadFacts Scalar ScalarFacts ModelPrimitive.
Local Open Scope R_scope.

Lemma atan2_range y x : - PI < Ratan2 y x <= PI.
Proof.
  unfold Ratan2. generalize PI_RGT_0 (atan_bound (y / x)). intros HP [H1 H2].
  destruct (Rlt_dec 0 x); [lra|]. destruct (Rlt_dec x 0).
  - destruct (Rle_dec 0 y) as [Hy|Hy].
    + assert (y / x <= 0). { unfold Rdiv. assert (/ x < 0) by now apply Rinv_lt_0_compat. nra. }
      assert (atan (y / x) <= atan 0). { destruct H as [H|H]; [left; now apply atan_increasing|right; now rewrite H]. }
      rewrite atan_0 in *. lra.
    + assert (0 < y / x). { unfold Rdiv. assert (/ x < 0) by now apply Rinv_lt_0_compat. nra. }
      assert (atan 0 < atan (y / x)) by now apply atan_increasing. rewrite atan_0 in *. lra.
  - destruct (Rlt_dec 0 y); [lra|]. destruct (Rlt_dec y 0); lra.
Qed.

Lemma atan_polar x y : x <> 0 -> sqrt (x * x + y * y) * cos (atan (y / x)) = Rabs x /\
  sqrt (x * x + y * y) * sin (atan (y / x)) = Rabs x * (y / x).
Proof.
  intros Hx. assert (Ht : tan (atan (y / x)) = y / x) by apply tan_atan.
  destruct (atan_bound (y / x)) as [B1 B2]. set (t := atan (y / x)) in *.
  assert (Hc : 0 < cos t) by (apply cos_gt_0; lra).
  assert (Hs : sin t = y / x * cos t). { rewrite <- Ht. unfold tan. field. lra. }
  assert (E : cos t * cos t * (x * x + y * y) = x * x).
  { pose proof (sin2_cos2 t) as H. unfold Rsqr in H. rewrite Hs in H.
    transitivity (x * x * (y / x * cos t * (y / x * cos t) + cos t * cos t)); [field; exact Hx|rewrite H; ring]. }
  assert (H : sqrt (x * x + y * y) * cos t = Rabs x).
  { rewrite <- sqrt_Rsqr_abs. unfold Rsqr. transitivity (sqrt (cos t * cos t * (x * x + y * y))); [|now rewrite E].
    rewrite sqrt_mult_alt by nra. rewrite sqrt_square by lra. ring. }
  split; [exact H|]. rewrite Hs. rewrite <- H. ring.
Qed.

Lemma atan2_polar y x : sqrt (x * x + y * y) * cos (Ratan2 y x) = x /\ sqrt (x * x + y * y) * sin (Ratan2 y x) = y.
Proof.
  unfold Ratan2. destruct (Rlt_dec 0 x) as [H|H].
  - destruct (atan_polar x y ltac:(lra)) as [-> ->]. rewrite Rabs_right by lra. split; [reflexivity|field; lra].
  - destruct (Rlt_dec x 0) as [H'|H'].
    + destruct (atan_polar x y ltac:(lra)) as [E1 E2]. rewrite Rabs_left in E1, E2 by lra.
      assert (E : - x * (y / x) = - y) by (field; lra). rewrite E in E2.
      destruct (Rle_dec 0 y).
      * rewrite neg_cos, neg_sin. lra.
      * replace (atan (y / x) - PI) with (- (PI - atan (y / x))) by ring. rewrite cos_neg, sin_neg, sin_PI_x.
        replace (PI - atan (y / x)) with (- atan (y / x) + PI) by ring. rewrite neg_cos, cos_neg. lra.
    + assert (x = 0) by lra. subst x. replace (0 * 0 + y * y) with (y * y) by ring.
      destruct (Rlt_dec 0 y).
      * rewrite sqrt_square by lra. rewrite cos_PI2, sin_PI2. lra.
      * destruct (Rlt_dec y 0).
        -- replace (y * y) with ((- y) * (- y)) by ring. rewrite sqrt_square by lra. rewrite cos_neg, sin_neg, cos_PI2, sin_PI2. lra.
        -- assert (y = 0) by lra. subst y. rewrite Rmult_0_l, sqrt_0. lra.
Qed.

Lemma cos_period_Z t (k : Z) : cos (t + IZR k * (2 * PI)) = cos t.
Proof.
  destruct (Z_le_gt_dec 0 k).
  - rewrite <- (Z2Nat.id k) by lia. rewrite <- INR_IZR_INZ. replace (t + INR (Z.to_nat k) * (2 * PI)) with (t + 2 * INR (Z.to_nat k) * PI) by ring.
    apply cos_period.
  - rewrite <- (cos_period (t + IZR k * (2 * PI)) (Z.to_nat (- k))). rewrite INR_IZR_INZ, Z2Nat.id, opp_IZR by lia. f_equal. ring.
Qed.
Lemma sin_period_Z t (k : Z) : sin (t + IZR k * (2 * PI)) = sin t.
Proof.
  destruct (Z_le_gt_dec 0 k).
  - rewrite <- (Z2Nat.id k) by lia. rewrite <- INR_IZR_INZ. replace (t + INR (Z.to_nat k) * (2 * PI)) with (t + 2 * INR (Z.to_nat k) * PI) by ring.
    apply sin_period.
  - rewrite <- (sin_period (t + IZR k * (2 * PI)) (Z.to_nat (- k))). rewrite INR_IZR_INZ, Z2Nat.id, opp_IZR by lia. f_equal. ring.
Qed.

(** Every angle has a representative in [-pi,pi]. *)
Lemma angle_reduce t : exists k : Z, Rabs (t + IZR k * (2 * PI)) <= PI.
Proof.
  pose proof PI_RGT_0 as HP. set (q := (t + PI) / (2 * PI)). assert (Eq : q * (2 * PI) = t + PI) by (unfold q; field; lra).
  pose proof (sfloor_R q) as Hf. exists (- sfloor q)%Z. rewrite opp_IZR. apply Rabs_le. split; nra.
Qed.

Lemma cos_abs x : cos (Rabs x) = cos x.
Proof. unfold Rabs. destruct (Rcase_abs x); [apply cos_neg|reflexivity]. Qed.
Lemma cos_decr_le x y : 0 <= x <= y -> y <= PI -> cos y <= cos x.
Proof. intros [H1 [H|H]] H2; [left; apply cos_decreasing_1; lra|right; now rewrite H]. Qed.

(** A parameter that is nearest modulo 2 pi maximises the cosine. *)
Lemma cos_nearest (D : R -> Prop) t r : (exists k : Z, forall x (j : Z), D x ->
    Rabs (r - (t + IZR k * (2 * PI))) <= Rabs (x - (t + IZR j * (2 * PI)))) ->
  forall x, D x -> cos (x - t) <= cos (r - t).
Proof.
  intros [k Hk] x Hx. destruct (angle_reduce (x - t)) as [j Hj]. specialize (Hk x (- j)%Z Hx). rewrite opp_IZR in Hk.
  replace (x - (t + - IZR j * (2 * PI))) with (x - t + IZR j * (2 * PI)) in Hk by ring.
  rewrite <- (cos_period_Z (x - t) j). rewrite <- (cos_period_Z (r - t) (- k)). rewrite opp_IZR.
  replace (r - t + - IZR k * (2 * PI)) with (r - (t + IZR k * (2 * PI))) by ring.
  rewrite <- cos_abs. rewrite <- (cos_abs (r - _)). apply cos_decr_le; [|exact Hj]. split; [apply Rabs_pos|exact Hk].
Qed.

(** On a range that contains no multiple of 2 pi in its interior the cosine is largest at an end. *)
Lemma cos_ends a b t (k : Z) : a <= t <= b -> IZR k * (2 * PI) <= a -> b <= IZR k * (2 * PI) + 2 * PI ->
  cos t <= Rmax (cos a) (cos b).
Proof.
  intros Ht Ha Hb. pose proof (cos_period_Z a (- k)) as Ea. pose proof (cos_period_Z b (- k)) as Eb. pose proof (cos_period_Z t (- k)) as Et.
  rewrite opp_IZR in Ea, Eb, Et. rewrite <- Ea, <- Eb, <- Et. set (w := IZR k * (2 * PI)) in *.
  replace (t + - IZR k * (2 * PI)) with (t - w) by (unfold w; ring). replace (a + - IZR k * (2 * PI)) with (a - w) by (unfold w; ring).
  replace (b + - IZR k * (2 * PI)) with (b - w) by (unfold w; ring). clearbody w. clear Ea Eb Et.
  destruct (Rle_dec (t - w) PI).
  - eapply Rle_trans; [|apply Rmax_l]. apply cos_decr_le; lra.
  - eapply Rle_trans; [|apply Rmax_r].
    assert (E : forall x, cos (2 * PI - x) = cos x). { intros x. replace (2 * PI - x) with (- x + IZR 1 * (2 * PI)) by (simpl; ring). now rewrite cos_period_Z, cos_neg. }
    rewrite <- (E (t - w)), <- (E (b - w)). apply cos_decr_le; lra.
Qed.

Lemma cos_1_sin_0 x : 1 <= cos x -> cos x = 1 /\ sin x = 0.
Proof.
  intros H. pose proof (COS_bound x). assert (E : cos x = 1) by lra. split; [exact E|].
  pose proof (sin2_cos2 x) as H2. unfold Rsqr in H2. rewrite E in H2. nra.
Qed.
(** Equal angles modulo 2 pi. *)
Lemma cos_diff_1 a b : 1 <= cos (a - b) -> cos a = cos b /\ sin a = sin b.
Proof.
  intros H. destruct (cos_1_sin_0 _ H) as [Hc Hs]. replace a with (a - b + b) by ring. rewrite cos_plus, sin_plus, Hc, Hs. lra.
Qed.
Lemma cs1 t : cos t * cos t + sin t * sin t = 1.
Proof. pose proof (sin2_cos2 t) as H. unfold Rsqr in H. lra. Qed.
Lemma hypot_pos x y : 0 <= sqrt (x * x + y * y).
Proof. apply sqrt_pos. Qed.
Lemma polar_dot t y x : x * cos t + y * sin t = sqrt (x * x + y * y) * cos (t - Ratan2 y x).
Proof. rewrite cos_minus. destruct (atan2_polar y x) as [Hx Hy]. set (h := sqrt _) in *. set (f := Ratan2 y x) in *. rewrite <- Hx, <- Hy. ring. Qed.
Lemma sqrt_sq_abs a b w : a * a + b * b = 1 -> sqrt (w * a * (w * a) + w * b * (w * b)) = Rabs w.
Proof. intros H. rewrite <- sqrt_Rsqr_abs. f_equal. unfold Rsqr. transitivity (w * w * (a * a + b * b)); [ring|rewrite H; ring]. Qed.
(** The angle of a point given in polar form. *)
Lemma atan2_of_polar w t : 0 < w -> cos (Ratan2 (w * sin t) (w * cos t)) = cos t /\ sin (Ratan2 (w * sin t) (w * cos t)) = sin t.
Proof.
  intros Hw. destruct (atan2_polar (w * sin t) (w * cos t)) as [H1 H2].
  rewrite sqrt_sq_abs in H1, H2 by apply cs1. rewrite Rabs_right in H1, H2 by lra.
  split; apply (Rmult_eq_reg_l w); lra.
Qed.

(** The "while (t < lower) t += 2 pi" loop. *)
Lemma raise_spec t lower : exists (n : nat), forall fuel, (n <= fuel)%nat -> exists k : Z, raise fuel t lower = Ok (t + IZR k * (2 * PI)) /\
  (0 <= k)%Z /\ lower <= t + IZR k * (2 * PI) /\ (k = 0%Z \/ t + IZR k * (2 * PI) < lower + 2 * PI).
Proof.
  pose proof PI_RGT_0 as HP.
  assert (H : forall n t, lower - t <= INR n * (2 * PI) -> forall fuel, (n <= fuel)%nat -> exists k : Z, raise fuel t lower = Ok (t + IZR k * (2 * PI)) /\
    (0 <= k)%Z /\ lower <= t + IZR k * (2 * PI) /\ (k = 0%Z \/ t + IZR k * (2 * PI) < lower + 2 * PI)).
  { induction n as [|n IH]; intros s Hs fuel Hf.
    - simpl in Hs. exists 0%Z. rewrite Rmult_0_l. split; [|split; [lia|split; [lra|now left]]].
      destruct fuel; cbn [raise slt R_ops]; rewrite Rltb_false by lra; f_equal; lra.
    - destruct fuel as [|fuel]; [lia|]. cbn [raise slt R_ops]. destruct (Rltb_spec s lower) as [Hl|Hl].
      + rewrite S_INR in Hs. destruct (IH (s + 2 * PI) ltac:(lra) fuel ltac:(lia)) as (k & E & Hk & Hlo & Hor).
        exists (k + 1)%Z. rewrite plus_IZR. cbn [sadd smul sofZ spi R_ops R_trig]. rewrite E. split; [f_equal; ring|]. split; [lia|].
        split; [lra|]. right. destruct Hor as [-> | Hor]; lra.
      + exists 0%Z. rewrite Rmult_0_l. split; [f_equal; lra|]. split; [lia|]. split; [lra|now left]. }
  set (q := (lower - t) / (2 * PI)). assert (Eq : q * (2 * PI) = lower - t) by (unfold q; field; lra).
  pose proof (archimed q) as [Ha _]. exists (Z.to_nat (up q)). apply H. rewrite INR_IZR_INZ.
  assert (IZR (up q) <= IZR (Z.of_nat (Z.to_nat (up q)))) by (apply IZR_le; lia). nra.
Qed.
