(** get_turning_angle of the base class, of sampled rational curves, of circles, ellipses and lines. *)
From Coq Require Import Reals Lra Lia ZArith List Psatz.
From Verif Require Import Monad MonadFacts LoopFacts Scalar ScalarFacts Spec SpecFacts SpecGeom SpecAnalysis SpecPrimitive SpecTurning ModelCurve ModelRational ModelLine ModelPrimitive
  TrigFacts EllipseThms ModelTurning TurningFacts AnalysisThms2.
Import ListNotations.
Local Open Scope R_scope.

Lemma other_dims d : (d =? 2)%nat = false -> forall (d1 : R -> res (vec R d)) n t0 t1,
  base_turning_angle d1 t0 t1 = Throw runtime_error /\ sampled_turning_angle d1 n t0 t1 = Throw invalid_setting_error.
Proof. intros H d1 n t0 t1. unfold base_turning_angle, sampled_turning_angle. now rewrite H. Qed.

Definition start_at (t0 t1 : R) (j : nat) : R := t1 - (t1 - t0) * (999 / 1000) ^ j.
Definition end_at (t0 t1 : R) (k : nat) : R := t0 + (t1 - t0) * (999 / 1000) ^ k.
Lemma nudge_R t0 t1 : nudge t0 t1 = (t1 - t0) / 1000.
Proof. unfold nudge. cbn [smul ssub sofQ R_ops]. unfold Q2R, Rdiv. change (QArith_base.Qnum _) with 1%Z. change (Z.pos (QArith_base.Qden _)) with 1000%Z. lra. Qed.

Lemma retry_start_spec (f1 : R -> vec R 2) d1 t1 n : forall t0 v, (forall t, d1 t = Ok (f1 t)) -> v = f1 t0 ->
  exists j, (j <= n)%nat /\ retry_start n d1 t1 t0 v = Ok (start_at t0 t1 j, f1 (start_at t0 t1 j)) /\
    (forall i, (i < j)%nat -> norm2 (f1 (start_at t0 t1 i)) < / IZR (2 ^ 52)) /\ ((j < n)%nat -> / IZR (2 ^ 52) <= norm2 (f1 (start_at t0 t1 j))).
Proof.
  induction n as [|n IH]; intros t0 v Hd ->.
  - exists 0%nat. assert (E : start_at t0 t1 0 = t0) by (unfold start_at; simpl; ring). rewrite E. repeat split; try reflexivity; lia.
  - cbn [retry_start]. rewrite pnorm_norm2, seps_R. cbn [slt R_ops]. destruct (Rltb_spec (norm2 (f1 t0)) (/ IZR (2 ^ 52))) as [H|H].
    + rewrite Hd, bind_Ok. destruct (IH (t0 + nudge t0 t1)%S _ Hd eq_refl) as (j & Hj & E & Hs & Hl). exists (S j).
      assert (Es : forall i, start_at (t0 + nudge t0 t1)%S t1 i = start_at t0 t1 (S i)).
      { intros i. unfold start_at. cbn [sadd R_ops]. rewrite nudge_R. simpl pow. field. }
      rewrite !Es in *. split; [lia|]. split; [exact E|]. split.
      * intros [|i] Hi; [replace (start_at t0 t1 0) with t0 by (unfold start_at; simpl; ring); exact H|]. rewrite <- Es. apply Hs. lia.
      * intros Hlt. apply Hl. lia.
    + exists 0%nat. assert (E : start_at t0 t1 0 = t0) by (unfold start_at; simpl; ring). rewrite E. repeat split; try reflexivity; try lia. intros _. lra.
Qed.
Lemma retry_end_spec (f1 : R -> vec R 2) d1 t0 n : forall t1 v, (forall t, d1 t = Ok (f1 t)) -> v = f1 t1 ->
  exists k, (k <= n)%nat /\ retry_end n d1 t0 t1 v = Ok (end_at t0 t1 k, f1 (end_at t0 t1 k)) /\
    (forall i, (i < k)%nat -> norm2 (f1 (end_at t0 t1 i)) < / IZR (2 ^ 52)) /\ ((k < n)%nat -> / IZR (2 ^ 52) <= norm2 (f1 (end_at t0 t1 k))).
Proof.
  induction n as [|n IH]; intros t1 v Hd ->.
  - exists 0%nat. assert (E : end_at t0 t1 0 = t1) by (unfold end_at; simpl; ring). rewrite E. repeat split; try reflexivity; lia.
  - cbn [retry_end]. rewrite pnorm_norm2, seps_R. cbn [slt R_ops]. destruct (Rltb_spec (norm2 (f1 t1)) (/ IZR (2 ^ 52))) as [H|H].
    + rewrite Hd, bind_Ok. destruct (IH (t1 - nudge t0 t1)%S _ Hd eq_refl) as (j & Hj & E & Hs & Hl). exists (S j).
      assert (Es : forall i, end_at t0 (t1 - nudge t0 t1)%S i = end_at t0 t1 (S i)).
      { intros i. unfold end_at. cbn [ssub R_ops]. rewrite nudge_R. simpl pow. field. }
      rewrite !Es in *. split; [lia|]. split; [exact E|]. split.
      * intros [|i] Hi; [replace (end_at t0 t1 0) with t1 by (unfold end_at; simpl; ring); exact H|]. rewrite <- Es. apply Hs. lia.
      * intros Hlt. apply Hl. lia.
    + exists 0%nat. assert (E : end_at t0 t1 0 = t1) by (unfold end_at; simpl; ring). rewrite E. repeat split; try reflexivity; try lia. intros _. lra.
Qed.

Lemma base_retry (f1 : R -> vec R 2) d1 t0 t1 : (forall t, d1 t = Ok (f1 t)) ->
  exists j k, (j <= 10)%nat /\ (k <= 10)%nat /\
    let a := t1 - (t1 - t0) * (999 / 1000) ^ j in
    let b := a + (t1 - a) * (999 / 1000) ^ k in
    (forall i, (i < j)%nat -> norm2 (f1 (t1 - (t1 - t0) * (999 / 1000) ^ i)) < / IZR (2 ^ 52)) /\ ((j < 10)%nat -> / IZR (2 ^ 52) <= norm2 (f1 a)) /\
    (forall i, (i < k)%nat -> norm2 (f1 (a + (t1 - a) * (999 / 1000) ^ i)) < / IZR (2 ^ 52)) /\ ((k < 10)%nat -> / IZR (2 ^ 52) <= norm2 (f1 b)) /\
    exists theta, base_turning_angle d1 t0 t1 = Ok theta /\ oriented_angle (f1 a) (f1 b) theta.
Proof.
  intros Hd. destruct (retry_start_spec f1 d1 t1 10 t0 _ Hd eq_refl) as (j & Hj & E & Hs & Hl).
  destruct (retry_end_spec f1 d1 (start_at t0 t1 j) 10 t1 _ Hd eq_refl) as (k & Hk & E' & Hs' & Hl'). exists j, k. split; [exact Hj|]. split; [exact Hk|].
  cbv zeta. fold (start_at t0 t1 j). fold (end_at (start_at t0 t1 j) t1 k). split; [exact Hs|]. split; [exact Hl|]. split; [exact Hs'|]. split; [exact Hl'|].
  exists (turn (f1 (start_at t0 t1 j)) (f1 (end_at (start_at t0 t1 j) t1 k))). split; [|apply turn_oriented].
  unfold base_turning_angle. cbn [Nat.eqb negb]. rewrite !Hd, !bind_Ok, E, bind_Ok. cbv beta iota. rewrite E', bind_Ok. reflexivity.
Qed.

Lemma base_value d1 (v w : vec R 2) t0 t1 : d1 t0 = Ok v -> d1 t1 = Ok w -> / IZR (2 ^ 52) <= norm2 v -> / IZR (2 ^ 52) <= norm2 w ->
  base_turning_angle d1 t0 t1 = Ok (turn v w).
Proof.
  intros Ev Ew Hv Hw. unfold base_turning_angle. cbn [Nat.eqb negb]. rewrite Ev, Ew, !bind_Ok.
  cbn [retry_start]. rewrite pnorm_norm2, seps_R. cbn [slt R_ops]. rewrite Rltb_false by lra. rewrite bind_Ok. cbv beta iota.
  cbn [retry_end]. rewrite pnorm_norm2, seps_R. cbn [slt R_ops]. rewrite Rltb_false by lra. rewrite bind_Ok. reflexivity.
Qed.
Lemma base_oriented d1 (v w : vec R 2) t0 t1 : d1 t0 = Ok v -> d1 t1 = Ok w -> / IZR (2 ^ 52) <= norm2 v -> / IZR (2 ^ 52) <= norm2 w ->
  exists theta, base_turning_angle d1 t0 t1 = Ok theta /\ oriented_angle v w theta.
Proof. intros Ev Ew Hv Hw. exists (turn v w). split; [now apply base_value|apply turn_oriented]. Qed.
Lemma eps_pos : 0 < / IZR (2 ^ 52).
Proof. apply Rinv_0_lt_compat. apply IZR_lt. reflexivity. Qed.
Lemma base_total d1 (f1 : R -> vec R 2) t0 t1 theta : t0 <= t1 -> d1 t0 = Ok (f1 t0) -> d1 t1 = Ok (f1 t1) ->
  / IZR (2 ^ 52) <= norm2 (f1 t0) -> / IZR (2 ^ 52) <= norm2 (f1 t1) -> turning f1 t0 t1 theta -> Rabs theta < PI ->
  base_turning_angle d1 t0 t1 = Ok theta.
Proof.
  intros Ht Ev Ew Hv Hw (p & Cp & Hp & ->) Hs. rewrite (base_value d1 _ _ t0 t1 Ev Ew Hv Hw). f_equal. pose proof eps_pos. apply turn_small; try lra; apply Hp; lra.
Qed.

(** ** Sampled curves *)
Lemma sampled_total d1 (f1 : R -> vec R 2) (phi : R -> R) n t0 t1 : (2 <= n)%Z -> t0 <= t1 ->
  continuity phi -> (forall t, t0 <= t <= t1 -> d1 t = Ok (f1 t) /\ heading (f1 t) (phi t)) ->
  let s := fun i => t0 + IZR i / IZR (n - 1) * (t1 - t0) in
  (forall i, (0 <= i < n)%Z -> / IZR (2 ^ 52) <= norm2 (f1 (s i))) ->
  (forall i, (0 <= i < n - 1)%Z -> Rabs (phi (s (i + 1)%Z) - phi (s i)) < PI) ->
  exists theta, sampled_turning_angle d1 n t0 t1 = Ok theta /\ turning f1 t0 t1 theta.
Proof.
  intros Hn Ht Cp Hf s Hns Hst. exists (phi t1 - phi t0). split; [|exists phi; split; [exact Cp|]; split; [intros t H; now apply Hf|reflexivity]].
  assert (Hn1 : 0 < IZR (n - 1)) by (apply IZR_lt; lia). pose proof eps_pos as He.
  assert (Hs : forall i, (0 <= i < n)%Z -> t0 <= s i <= t1).
  { intros i Hi. assert (0 <= IZR i / IZR (n - 1) <= 1).
    { assert (0 <= IZR i) by (apply IZR_le; lia). assert (IZR i <= IZR (n - 1)) by (apply IZR_le; lia).
      split; [apply Rmult_le_pos; [assumption|left; now apply Rinv_0_lt_compat]|]. apply (Rmult_le_reg_r (IZR (n - 1))); [assumption|]. unfold Rdiv. rewrite Rmult_assoc, Rinv_l by lra. lra. }
    unfold s. nra. }
  assert (S0 : s 0%Z = t0) by (unfold s; field; lra).
  assert (S1 : s (n - 1)%Z = t1) by (unfold s; field; lra).
  unfold sampled_turning_angle. cbn [Nat.eqb negb].
  match goal with |- context [for_up 1 n ?B ?S0] => destruct (for_up_inv (fun i st => st = (phi (s (i - 1)%Z) - phi t0, s (i - 1)%Z)) 1 n B S0) as ([th tp] & E & H) end.
  - lia.
  - change (1 - 1)%Z with 0%Z. rewrite S0. cbn [s0 R_ops]. f_equal. ring.
  - intros i st Hi ->. cbv beta iota. rewrite ddiv_R by (cbn [sofZ R_ops]; lra).
    rewrite bind_Ok. cbn [sofZ sadd ssub smul R_ops]. fold (s i). destruct (Hf (s (i - 1)%Z)) as [E1 H1]; [apply Hs; lia|]. destruct (Hf (s i)) as [E2 H2]; [apply Hs; lia|].
    rewrite (base_value d1 _ _ _ _ E1 E2) by (apply Hns; lia). rewrite bind_Ok.
    rewrite (turn_small _ _ (phi (s (i - 1)%Z)) (phi (s i))); try assumption.
    + eexists; split; [reflexivity|]. replace (i + 1 - 1)%Z with i by lia. f_equal. ring.
    + pose proof (Hns (i - 1)%Z ltac:(lia)). lra.
    + pose proof (Hns i ltac:(lia)). lra.
    + pose proof (Hst (i - 1)%Z ltac:(lia)) as K. replace (i - 1 + 1)%Z with i in K by lia. exact K.
  - rewrite E, bind_Ok. injection H as -> ->. rewrite S1. reflexivity.
Qed.

(** ** Lines, circles and ellipses *)
Lemma line_turning (c : line R (vec R 2)) t0 t1 : exists theta f1, ln_turning_angle c t0 t1 = Ok theta /\
  (forall t, ln_evaluate_derivative c t = Ok (f1 t)) /\ turning f1 t0 t1 theta.
Proof.
  exists 0, (fun _ => ln_direction c). split; [reflexivity|]. split; [reflexivity|]. destruct (turning_point (fun _ => ln_direction c) t0) as (p & _ & Hp & _).
  exists (fun _ => p t0). split; [apply continuity_const; intros x y; reflexivity|]. split; [|ring]. intros t Ht. apply (Hp t0). lra.
Qed.

Lemma frame_angle (x y : vec R 2) : orthonormal2 x y -> exists al, coord 2 0 x = cos al /\ coord 2 1 x = sin al /\
  coord 2 0 y = - cross2 x y * sin al /\ coord 2 1 y = cross2 x y * cos al /\ (cross2 x y = 1 \/ cross2 x y = -1).
Proof.
  intros (Hx & Hy & Hxy). rewrite inner_2 in *. destruct (atan2_heading x) as [H0 H1]. assert (Hn : norm2 x = 1).
  { unfold norm2. replace (_ + _) with 1 by (rewrite <- Hx; ring). apply sqrt_1. }
  rewrite Hn, Rmult_1_l in H0, H1. exists (Ratan2 (coord 2 1 x) (coord 2 0 x)). rewrite <- H0, <- H1. unfold cross2.
  set (a := coord 2 0 x) in *. set (b := coord 2 1 x) in *. set (e := coord 2 0 y) in *. set (f := coord 2 1 y) in *.
  split; [reflexivity|]. split; [reflexivity|]. split; [|split].
  - transitivity (e * (a * a + b * b) - a * (a * e + b * f)); [rewrite Hx, Hxy; ring|ring].
  - transitivity (f * (a * a + b * b) - b * (a * e + b * f)); [rewrite Hx, Hxy; ring|ring].
  - assert (K : (a * f - b * e) * (a * f - b * e) = 1).
    { transitivity ((a * a + b * b) * (e * e + f * f) - (a * e + b * f) * (a * e + b * f)); [ring|rewrite Hx, Hy, Hxy; ring]. }
    destruct (Req_dec (a * f - b * e) 1); [left; assumption|right; nra].
Qed.

Lemma circle_frame (c : circle R (vec R 2)) : orthonormal2 (ci_x c) (ci_y c) -> 0 < ci_radius c ->
  let s := cross2 (ci_x c) (ci_y c) in
  (s = 1 \/ s = -1) /\ exists f1, (forall t, ci_evaluate_derivative c t = Ok (f1 t)) /\ (forall t, 0 < norm2 (f1 t)) /\ forall t0 t1, turning f1 t0 t1 (s * (t1 - t0)).
Proof.
  intros Ho Hr s. destruct (frame_angle _ _ Ho) as (al & X0 & X1 & Y0 & Y1 & Hs). fold s in Y0, Y1, Hs. split; [exact Hs|].
  eexists. split; [intros t; unfold ci_evaluate_derivative; reflexivity|]. set (f1 := fun t => _).
  assert (E0 : forall t, coord 2 0 (f1 t) = ci_radius c * cos (al + s * (t + PI / 2))).
  { intros t. unfold f1. rewrite !coord_mul, !coord_add, !coord_mul by lia. cbn [scos ssin sopp smul sadd s1 R_trig R_ops]. rewrite X0, Y0.
    destruct Hs as [-> | ->].
    - replace (al + 1 * (t + PI / 2)) with (PI / 2 + (al + t)) by ring. rewrite <- sin_cos || idtac. rewrite cos_plus, cos_PI2, sin_PI2, sin_plus. ring.
    - replace (al + -1 * (t + PI / 2)) with ((al - t) - PI / 2) by ring. rewrite cos_minus, cos_PI2, sin_PI2, sin_minus. ring. }
  assert (E1 : forall t, coord 2 1 (f1 t) = ci_radius c * sin (al + s * (t + PI / 2))).
  { intros t. unfold f1. rewrite !coord_mul, !coord_add, !coord_mul by lia. cbn [scos ssin sopp smul sadd s1 R_trig R_ops]. rewrite X1, Y1.
    destruct Hs as [-> | ->].
    - replace (al + 1 * (t + PI / 2)) with (PI / 2 + (al + t)) by ring. rewrite sin_plus, cos_PI2, sin_PI2, cos_plus. ring.
    - replace (al + -1 * (t + PI / 2)) with ((al - t) - PI / 2) by ring. rewrite sin_minus, cos_PI2, sin_PI2, cos_minus. ring. }
  assert (En : forall t, norm2 (f1 t) = ci_radius c).
  { intros t. unfold norm2. rewrite E0, E1. transitivity (sqrt (ci_radius c * ci_radius c)); [f_equal; pose proof (cs1 (al + s * (t + PI / 2))); nra|]. apply sqrt_square. lra. }
  split; [intros t; rewrite En; exact Hr|]. intros t0 t1. exists (fun t => al + s * (t + PI / 2)). split; [|split; [|ring]].
  - apply continuity_plus; [apply continuity_const; intros x y; reflexivity|]. apply continuity_mult; [apply continuity_const; intros x y; reflexivity|].
    apply continuity_plus; [apply derivable_continuous, derivable_id|apply continuity_const; intros x y; reflexivity].
  - intros t _. unfold heading. rewrite En. split; [apply E0|apply E1].
Qed.
Lemma circle_turning (c : circle R (vec R 2)) t0 t1 : orthonormal2 (ci_x c) (ci_y c) -> 0 < ci_radius c -> cross2 (ci_x c) (ci_y c) = 1 -> t0 <= t1 ->
  exists theta f1, ci_turning_angle c t0 t1 = Ok theta /\ (forall t, ci_evaluate_derivative c t = Ok (f1 t)) /\ turning f1 t0 t1 theta.
Proof.
  intros Ho Hr Hs Ht. destruct (circle_frame c Ho Hr) as (_ & f1 & E & _ & H). exists (t1 - t0), f1. split; [|split; [exact E|]].
  - unfold ci_turning_angle. cbn [Nat.eqb negb sle R_ops]. rewrite Rleb_true by lra. reflexivity.
  - specialize (H t0 t1). rewrite Hs in H. now rewrite Rmult_1_l in H.
Qed.
Lemma circle_clockwise (c : circle R (vec R 2)) t0 t1 : orthonormal2 (ci_x c) (ci_y c) -> 0 < ci_radius c -> cross2 (ci_x c) (ci_y c) = -1 -> t0 < t1 ->
  exists theta f1, ci_turning_angle c t0 t1 = Ok theta /\ (forall t, ci_evaluate_derivative c t = Ok (f1 t)) /\ turning f1 t0 t1 (- theta) /\ ~ turning f1 t0 t1 theta.
Proof.
  intros Ho Hr Hs Ht. destruct (circle_frame c Ho Hr) as (_ & f1 & E & Hn & H). exists (t1 - t0), f1. split; [|split; [exact E|]].
  - unfold ci_turning_angle. cbn [Nat.eqb negb sle R_ops]. rewrite Rleb_true by lra. reflexivity.
  - specialize (H t0 t1). rewrite Hs in H. replace (-1 * (t1 - t0)) with (- (t1 - t0)) in H by ring. split; [exact H|]. intros K.
    pose proof (turning_unique f1 t0 t1 _ _ ltac:(lra) (fun t _ => Hn t) H K). lra.
Qed.

Definition std_ellipse (a b : R) : ellipse R (vec R 2) :=
  {| el_center := (0, (0, tt)); el_x := (1, (0, tt)); el_y := (0, (1, tt)); el_major := a; el_minor := b; el_lower := 0; el_upper := 2 * PI; el_periodic := true |}.
Definition ell_tan (a b t : R) : vec R 2 := (- a * sin t, (b * cos t, tt)).
Lemma ell_derivative a b t : el_evaluate_derivative (std_ellipse a b) t = Ok (ell_tan a b t).
Proof. unfold el_evaluate_derivative, std_ellipse, ell_tan. cbn. f_equal. f_equal; [ring|f_equal; ring]. Qed.
Lemma ell_norm a b t : 0 < b <= a -> b <= norm2 (ell_tan a b t).
Proof.
  intros H. unfold norm2, ell_tan. cbn [coord fst snd]. rewrite <- (sqrt_square b) at 1 by lra. apply sqrt_le_1; try nra. pose proof (cs1 t).
  apply (Rle_trans _ (b * b * (cos t * cos t + sin t * sin t))); [rewrite H0; lra|]. assert (0 <= sin t * sin t) by nra. assert (b * b <= a * a) by nra. nra.
Qed.
Lemma ell_turning a b : 0 < b <= a -> turning (ell_tan a b) 0 (2 * PI) (2 * PI).
Proof.
  intros H. set (u := fun t : R => ((- sin t, (cos t, tt)) : vec R 2)). assert (Hi : forall t, 0 < inner (u t) (ell_tan a b t)).
  { intros t. rewrite inner_2. unfold u, ell_tan. cbn [coord fst snd]. pose proof (cs1 t). assert (b * (cos t * cos t + sin t * sin t) = b) by (rewrite H0; ring). assert (0 <= sin t * sin t) by nra. nra. }
  assert (Hu : forall t, heading (u t) (t + PI / 2)).
  { intros t. assert (N : norm2 (u t) = 1). { unfold norm2, u. cbn [coord fst snd]. transitivity (sqrt 1); [f_equal; pose proof (cs1 t); lra|apply sqrt_1]. }
    unfold heading. rewrite N, cos_plus, sin_plus, cos_PI2, sin_PI2. unfold u. cbn [coord fst snd]. split; ring. }
  exists (fun t => t + PI / 2 + side (u t) (ell_tan a b t)). split; [|split].
  - apply continuity_plus; [apply continuity_plus; [apply derivable_continuous, derivable_id|apply continuity_const; intros x y; reflexivity]|].
    apply (continuity_comp (fun t => cross2 (u t) (ell_tan a b t) / inner (u t) (ell_tan a b t)) atan).
    + intros t. apply continuity_pt_div; [| |specialize (Hi t); lra].
      * apply (cont_ext (fun t => - sin t * (b * cos t) - cos t * (- a * sin t))); [reflexivity|]. reg.
      * apply (cont_ext (fun t => - sin t * (- a * sin t) + cos t * (b * cos t))); [intros; rewrite inner_2; reflexivity|]. reg.
    + intros x. apply derivable_continuous_pt. exists (/ (1 + x ^ 2)). apply derivable_pt_lim_atan.
  - intros t _. apply side_heading_of; [apply Hu|apply Hi].
  - replace (u (2 * PI)) with (u 0) by (unfold u; now rewrite sin_2PI, cos_2PI, sin_0, cos_0).
    replace (ell_tan a b (2 * PI)) with (ell_tan a b 0) by (unfold ell_tan; now rewrite sin_2PI, cos_2PI, sin_0, cos_0). ring.
Qed.
(** The full ellipse: the result is 0. *)
Lemma ellipse_full a b : / IZR (2 ^ 52) <= b <= a ->
  el_turning_angle (std_ellipse a b) 0 (2 * PI) = Ok 0 /\ turning (ell_tan a b) 0 (2 * PI) (2 * PI) /\ ~ turning (ell_tan a b) 0 (2 * PI) 0.
Proof.
  intros H. pose proof eps_pos. pose proof PI_RGT_0. split; [|split; [apply ell_turning; lra|]].
  - unfold el_turning_angle. rewrite (base_value _ _ _ 0 (2 * PI) (ell_derivative a b 0) (ell_derivative a b (2 * PI))).
    + f_equal. replace (ell_tan a b (2 * PI)) with (ell_tan a b 0) by (unfold ell_tan; now rewrite sin_2PI, cos_2PI, sin_0, cos_0).
      rewrite (turn_small (ell_tan a b 0) (ell_tan a b 0) (Ratan2 (coord 2 1 (ell_tan a b 0)) (coord 2 0 (ell_tan a b 0))) (Ratan2 (coord 2 1 (ell_tan a b 0)) (coord 2 0 (ell_tan a b 0)))); try apply atan2_heading; try ring.
      * pose proof (ell_norm a b 0 ltac:(lra)). lra.
      * pose proof (ell_norm a b 0 ltac:(lra)). lra.
      * unfold Rminus. rewrite Rplus_opp_r, Rabs_R0. lra.
    + pose proof (ell_norm a b 0 ltac:(lra)). lra.
    + pose proof (ell_norm a b (2 * PI) ltac:(lra)). lra.
  - intros K. assert (Hn : forall t, 0 <= t <= 2 * PI -> 0 < norm2 (ell_tan a b t)) by (intros t _; pose proof (ell_norm a b t ltac:(lra)); lra).
    pose proof (turning_unique _ 0 (2 * PI) _ _ ltac:(lra) Hn (ell_turning a b ltac:(lra)) K). lra.
Qed.
(** A quarter of a circle smaller than the machine epsilon: the result is 2% too small. *)
Lemma small_quarter r : 0 < r < / IZR (2 ^ 52) ->
  el_turning_angle (std_ellipse r r) 0 (PI / 2) = Ok (PI / 2 * (999 / 1000) ^ 20) /\ turning (ell_tan r r) 0 (PI / 2) (PI / 2) /\
  oriented_angle (ell_tan r r 0) (ell_tan r r (PI / 2)) (PI / 2).
Proof.
  intros H. pose proof PI_RGT_0 as HP.
  assert (Hh : forall t, heading (ell_tan r r t) (t + PI / 2) /\ norm2 (ell_tan r r t) = r).
  { intros t. assert (N : norm2 (ell_tan r r t) = r).
    { unfold norm2, ell_tan. cbn [coord fst snd]. transitivity (sqrt (r * r)); [f_equal; pose proof (cs1 t); nra|apply sqrt_square; lra]. }
    split; [|exact N]. unfold heading. rewrite N, cos_plus, sin_plus, cos_PI2, sin_PI2. unfold ell_tan. cbn [coord fst snd]. split; ring. }
  destruct (base_retry (ell_tan r r) _ 0 (PI / 2) (ell_derivative r r)) as (j & k & Hj & Hk & R). cbv zeta in R.
  set (a := PI / 2 - (PI / 2 - 0) * (999 / 1000) ^ j) in *. set (b := a + (PI / 2 - a) * (999 / 1000) ^ k) in *.
  destruct R as (_ & J & _ & K & theta & E & Ho).
  assert (j = 10%nat). { destruct (Nat.eq_dec j 10); [assumption|]. specialize (J ltac:(lia)). rewrite (proj2 (Hh a)) in J. lra. }
  assert (k = 10%nat). { destruct (Nat.eq_dec k 10); [assumption|]. specialize (K ltac:(lia)). rewrite (proj2 (Hh b)) in K. lra. }
  subst j k. clear J K Hj Hk.
  assert (Eab : b - a = PI / 2 * (999 / 1000) ^ 20). { unfold b, a. simpl pow. ring. }
  assert (Hba : 0 < b - a < PI / 2). { rewrite Eab. simpl pow. nra. }
  split; [|split].
  - unfold el_turning_angle. rewrite E. f_equal. rewrite <- Eab. destruct Ho as (Hr & O1 & O2). rewrite !(proj2 (Hh _)) in O1, O2.
    destruct (turn_heading _ _ _ _ (proj1 (Hh a)) (proj1 (Hh b))) as [T1 T2]; [rewrite (proj2 (Hh a)); lra|rewrite (proj2 (Hh b)); lra|].
    destruct (turn_oriented (ell_tan r r a) (ell_tan r r b)) as (_ & P1 & P2). rewrite !(proj2 (Hh _)) in P1, P2.
    assert (Hrr : r * r <> 0) by nra. replace (b + PI / 2 - (a + PI / 2)) with (b - a) in T1, T2 by ring. apply angle_unique.
    + apply (Rmult_eq_reg_l (r * r)); [|exact Hrr]. rewrite O1, <- P1, T1. reflexivity.
    + apply (Rmult_eq_reg_l (r * r)); [|exact Hrr]. rewrite O2, <- P2, T2. reflexivity.
    + apply Rabs_def1; lra.
  - exists (fun t => t + PI / 2). split; [|split; [intros t _; apply Hh|ring]].
    apply continuity_plus; [apply derivable_continuous, derivable_id|apply continuity_const; intros x y; reflexivity].
  - split; [lra|]. rewrite !(proj2 (Hh _)), inner_2. unfold cross2, ell_tan. cbn [coord fst snd]. rewrite cos_0, sin_0, cos_PI2, sin_PI2. split; ring.
Qed.
