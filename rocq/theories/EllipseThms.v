(** Proofs about Ellipse.h. *)
From Coq Require Import Reals Lra Lia ZArith Psatz Bool.
From Coquelicot Require Import Coquelicot.
From Verif Require Import Monad MonadFacts Scalar ScalarFacts Spec SpecFacts SpecGeom SpecPrimitive ModelCurve ModelPrimitive CurveThms LineThms IntersectThms TrigFacts PrimitiveFacts CircleThms.
Local Open Scope R_scope.

Definition el_pt {d} (c : ellipse R (vec R d)) (t : R) : vec R d := at2 (el_center c) (el_x c) (el_y c) (el_major c * cos t) (el_minor c * sin t).
Definition el_pt1 {d} (c : ellipse R (vec R d)) (t : R) : vec R d := at2 p0 (el_x c) (el_y c) (- el_major c * sin t) (el_minor c * cos t).
Definition el_pt2 {d} (c : ellipse R (vec R d)) (t : R) : vec R d := at2 p0 (el_x c) (el_y c) (- el_major c * cos t) (- el_minor c * sin t).
Lemma el_eval {d} (c : ellipse R (vec R d)) t : el_evaluate c t = Ok (el_pt c t).
Proof. unfold el_evaluate, el_pt. apply f_equal. vext. cbn [scos ssin R_trig]. ring. Qed.
Lemma el_eval1 {d} (c : ellipse R (vec R d)) t : el_evaluate_derivative c t = Ok (el_pt1 c t).
Proof. unfold el_evaluate_derivative, el_pt1. apply f_equal. vext. cbn [scos ssin R_trig sopp s1 R_ops]. ring. Qed.
Lemma el_eval2 {d} (c : ellipse R (vec R d)) t : el_evaluate_2nd_derivative c t = Ok (el_pt2 c t).
Proof. unfold el_evaluate_2nd_derivative, el_pt2. apply f_equal. vext. cbn [scos ssin R_trig sopp s1 R_ops]. ring. Qed.

Lemma ellipse_derivatives d (c : ellipse R (vec R d)) : exists f f1 f2,
  (forall t, el_evaluate c t = Ok (f t) /\ el_evaluate_derivative c t = Ok (f1 t) /\ el_evaluate_2nd_derivative c t = Ok (f2 t)) /\
  two_derivatives f f1 f2.
Proof.
  exists (el_pt c), (el_pt1 c), (el_pt2 c). split; [intros t; now rewrite el_eval, el_eval1, el_eval2|].
  intros t. split; apply vderiv_at2; dlim.
Qed.

Lemma ellipse_points d (c : ellipse R (vec R d)) t : orthonormal2 (el_x c) (el_y c) -> 0 < el_major c -> 0 < el_minor c ->
  exists q, el_evaluate c t = Ok q /\ in_plane (el_center c) (el_x c) (el_y c) q /\
  (along (el_center c) (el_x c) q / el_major c) ^ 2 + (along (el_center c) (el_y c) q / el_minor c) ^ 2 = 1.
Proof.
  intros H Ha Hb. exists (el_pt c t). split; [apply el_eval|]. split.
  - intros n H1 H2. unfold el_pt. rewrite along_at2, H1, H2. ring.
  - unfold el_pt. destruct (along_at2_frame (el_center c) _ _ (el_major c * cos t) (el_minor c * sin t) H) as [-> ->].
    rewrite <- (cs1 t). field. lra.
Qed.

Lemma raise_ge fuel : forall t lower r : R, raise fuel t lower = Ok r -> (lower <= r)%R.
Proof.
  induction fuel as [|fuel IH]; intros t lower r; cbn [raise slt R_ops]; destruct (Rltb_spec t lower) as [H|H]; intros E; try discriminate.
  - apply Ok_inj in E. now subst r.
  - exact (IH _ _ _ E).
  - apply Ok_inj in E. now subst r.
Qed.

Lemma ellipse_range d (c : ellipse R (vec R d)) p lo hi fuel t :
  el_approximate_inverse_evaluate fuel c p lo hi = Ok t -> lo <= t <= hi.
Proof.
  unfold el_approximate_inverse_evaluate. intros E. apply bind_inv in E as (u & E0 & E). cbn [sle R_ops] in E0.
  destruct (Rleb_spec lo hi) as [Hl|Hl]; [|discriminate]. clear u E0.
  apply bind_inv in E as (a1 & _ & E). apply bind_inv in E as (a2 & _ & E). apply bind_inv in E as (t0 & _ & E).
  apply bind_inv in E as (t1 & E1 & E). apply raise_ge in E1.
  destruct (end_or_spec d (el_pt c) (el_evaluate c) p lo hi t1 (el_eval c) Hl E1) as (r & Er & Hr & _).
  rewrite Er in E. apply Ok_inj in E. now subst r.
Qed.

Lemma ellipse_initialize d (c : ellipse R (vec R d)) : inner (el_x c) (el_y c) = 0 -> 0 < el_minor c <= el_major c -> el_lower c <= el_upper c ->
  exists c', el_initialize c = Ok c' /\ el_center c' = el_center c /\ el_x c' = el_x c /\ el_y c' = el_y c /\ el_major c' = el_major c /\ el_minor c' = el_minor c /\
    el_lower c' = el_lower c /\ el_upper c' = el_upper c /\ (el_periodic c' = true <-> whole_turns prim_tol (el_lower c) (el_upper c)).
Proof.
  intros Hab Hm Hl. unfold el_initialize. rewrite !pdot_inner, Hab. pose proof prim_tol_bound as [Ht _].
  cbn [s0 slt sle R_ops]. rewrite !sabs_R, Rabs_R0. rewrite !Rltb_true by lra. rewrite !Rleb_true by lra. cbn [assert_ bind].
  destruct (winding_spec (el_lower c) (el_upper c)) as (b & E & Hb'). rewrite E, bind_Ok.
  eexists. split; [reflexivity|]. repeat split; apply Hb'.
Qed.

(** * The iteration *)
Lemma el_curv d (c : ellipse R (vec R d)) t : orthonormal2 (el_x c) (el_y c) -> 0 < el_major c -> 0 < el_minor c ->
  let a := el_major c in let b := el_minor c in let S := a ^ 2 * sin t ^ 2 + b ^ 2 * cos t ^ 2 in
  0 < S /\ evaluate_curvature (el_ops c) t = Ok (at2 p0 (el_x c) (el_y c) (- (a * b ^ 2 / S ^ 2) * cos t) (- (a ^ 2 * b / S ^ 2) * sin t)).
Proof.
  intros (Hx & Hy & Hxy) Ha Hb a b S. fold a in Ha. fold b in Hb.
  assert (HS : 0 < S).
  { unfold S. pose proof (cs1 t). assert (0 < a ^ 2) by (apply pow_lt; lra). assert (0 < b ^ 2) by (apply pow_lt; lra).
    destruct (Req_dec (sin t) 0) as [E|E].
    - rewrite E in *. assert (0 < cos t ^ 2) by nra. nra.
    - assert (0 < sin t ^ 2) by (apply pow2_gt_0; exact E). pose proof (pow2_ge_0 (cos t)). nra. }
  split; [exact HS|]. unfold evaluate_curvature. cbn [c_d1 c_d2 el_ops]. rewrite el_eval1, el_eval2, !bind_Ok.
  assert (ES : sqnorm (el_pt1 c t) = S).
  { unfold sqnorm. rewrite pdot_inner. unfold el_pt1, at2. bilin. rewrite (inner_comm _ (el_y c) (el_x c)), Hx, Hy, Hxy.
    unfold inner at 1 2 3 4 5. rewrite !rsum_0 by (intros i Hi; rewrite coord_0 by exact Hi; ring). unfold S, a, b. ring. }
  assert (ED : pdot (el_pt1 c t) (el_pt2 c t) = (a ^ 2 - b ^ 2) * (sin t * cos t)).
  { rewrite pdot_inner. unfold el_pt1, el_pt2, at2. bilin. rewrite (inner_comm _ (el_y c) (el_x c)), Hx, Hy, Hxy.
    unfold inner at 1 2 3 4 5. rewrite !rsum_0 by (intros i Hi; rewrite coord_0 by exact Hi; ring). unfold a, b. ring. }
  rewrite ES, ED. unfold pdivs. cbn [seq_ s0 s1 sdiv R_ops]. rewrite Reqb_false by lra. rewrite bind_Ok. apply f_equal.
  vext. unfold el_pt1, el_pt2, at2. rewrite ?coord_add, ?coord_mul, ?coord_add, ?coord_mul, ?coord_0 by exact Hidx. fold a b.
  set (X := coord d i (el_x c)). set (Y := coord d i (el_y c)). 
  assert (HS0 : S <> 0) by lra.
  apply (Rmult_eq_reg_r (S ^ 2)); [|apply pow_nonzero; lra].
  transitivity (S * (- a * cos t * X - b * sin t * Y) - (a ^ 2 - b ^ 2) * (sin t * cos t) * (- a * sin t * X + b * cos t * Y)); [field; lra|].
  transitivity (- (a * b ^ 2) * cos t * X - a ^ 2 * b * sin t * Y); [|field; lra].
  unfold S. transitivity ((cos t * cos t + sin t * sin t) * (- (a * b ^ 2) * cos t * X - a ^ 2 * b * sin t * Y)); [ring|]. rewrite cs1. ring.
Qed.

Definition quarter_clamp (t : R) : R := if Rlt_dec t 0 then 0 else if Rlt_dec (PI / 2) t then PI / 2 else t.

Lemma el_step_frame d (c : ellipse R (vec R d)) p t : orthonormal2 (el_x c) (el_y c) -> 0 < el_major c -> 0 < el_minor c ->
  let a := el_major c in let b := el_minor c in let S := a ^ 2 * sin t ^ 2 + b ^ 2 * cos t ^ 2 in
  let X := along (el_center c) (el_x c) p - (a - S / a) * cos t in let Y := along (el_center c) (el_y c) p - (b - S / b) * sin t in
  let qx := S / a * cos t in let qy := S / b * sin t in
  let dt := S / (a * b) * Ratan2 (qx * Y - qy * X) (qx * X + qy * Y) in
  el_step c p (el_x c) (el_y c) t = if Rlt_dec prim_tol (a ^ 2 * b ^ 2 / S ^ 3) then Ok (quarter_clamp (t + dt), dt) else Undef.
Proof.
  intros Ho Ha Hb a b S X Y qx qy dt. destruct (el_curv d c t Ho Ha Hb) as [HS EK]. fold a b in HS, EK. fold S in HS, EK.
  destruct Ho as (Hx & Hy & Hxy). fold a in Ha. fold b in Hb.
  assert (Z0 : forall w : vec R d, inner p0 w = 0) by (intros w; apply inner_0_l).
  assert (Z1 : forall w : vec R d, inner w p0 = 0) by (intros w; rewrite inner_comm; apply inner_0_l).
  unfold el_step. rewrite el_eval, bind_Ok, EK, bind_Ok. set (k := at2 p0 _ _ _ _).
  assert (ESn : sqnorm k = a ^ 2 * b ^ 2 / S ^ 3).
  { unfold sqnorm, k, at2. rewrite pdot_inner. bilin. rewrite !Z0, !Z1, (inner_comm _ (el_y c) (el_x c)), Hx, Hy, Hxy.
    fold a b. transitivity (a ^ 2 * b ^ 2 * (a ^ 2 * sin t ^ 2 + b ^ 2 * cos t ^ 2) / S ^ 4); [clearbody S; field; lra|fold S; clearbody S; field; lra]. }
  rewrite ESn. cbv zeta. cbn [slt R_ops]. unfold Rltb at 1. destruct (Rlt_dec prim_tol (a ^ 2 * b ^ 2 / S ^ 3)) as [Ht|Ht]; [|reflexivity].
  cbn [assert_ bind]. set (sn := a ^ 2 * b ^ 2 / S ^ 3) in *. pose proof prim_tol_bound as [Hpt _]. assert (Hsn : 0 < sn) by lra.
  assert (Hsq : 0 < sqrt sn) by now apply sqrt_lt_R0. unfold ddiv, pdivs. cbn [seq_ s0 s1 sdiv ssqrt R_ops].
  rewrite (Reqb_false (sqrt sn)) by lra. cbn [bind]. rewrite (Reqb_false sn) by lra. cbn [bind].
  rewrite !pdot_inner. set (q := el_pt c t). set (kc := padd q (pmul (1 / sn) k)).
  assert (Ekc : forall w : vec R d, inner kc w = inner (el_center c) w + (a - S / a) * cos t * inner (el_x c) w + (b - S / b) * sin t * inner (el_y c) w).
  { intros w. unfold kc, q, k, el_pt, at2. bilin. rewrite Z0. fold a b. unfold sn. field. lra. }
  assert (Eq : forall w : vec R d, inner q w = inner (el_center c) w + a * cos t * inner (el_x c) w + b * sin t * inner (el_y c) w).
  { intros w. unfold q, el_pt, at2. bilin. fold a b. ring. }
  rewrite !inner_sub_l, !Ekc, !Eq. rewrite (inner_comm _ (el_y c) (el_x c)), Hx, Hy, Hxy. cbn [ssub smul sadd satan2 R_ops R_trig]. fold a b.
  assert (ED : a * a + b * b - (inner (el_center c) (el_x c) + a * cos t * 1 + b * sin t * 0 - inner (el_center c) (el_x c)) *
     (inner (el_center c) (el_x c) + a * cos t * 1 + b * sin t * 0 - inner (el_center c) (el_x c)) -
     (inner (el_center c) (el_y c) + a * cos t * 0 + b * sin t * 1 - inner (el_center c) (el_y c)) *
     (inner (el_center c) (el_y c) + a * cos t * 0 + b * sin t * 1 - inner (el_center c) (el_y c)) = S).
  { transitivity (a * a * (cos t * cos t + sin t * sin t) + b * b * (cos t * cos t + sin t * sin t) - a * a * (cos t * cos t) - b * b * (sin t * sin t)); [rewrite cs1; ring|unfold S; ring]. }
  rewrite ED. assert (HqS : 0 < sqrt S) by now apply sqrt_lt_R0. rewrite (Reqb_false (sqrt S)) by lra. rewrite bind_Ok.
  match goal with |- context [Ratan2 ?y ?x] => replace y with (qx * Y - qy * X); [replace x with (qx * X + qy * Y)|] end;
    [|unfold qx, qy, X, Y, along; rewrite !inner_sub_l; ring|unfold qx, qy, X, Y, along; rewrite !inner_sub_l; ring].
  set (th := Ratan2 _ _).
  assert (Edt : 1 / sqrt sn * th / sqrt S = dt).
  { unfold dt. fold th. assert (E : sqrt sn * sqrt S = a * b / S).
    { rewrite <- sqrt_mult_alt by lra. replace (sn * S) with ((a * b / S) * (a * b / S)) by (unfold sn; field; lra). apply sqrt_square.
      apply Rmult_le_pos; [nra|left; now apply Rinv_0_lt_compat]. }
    transitivity (th / (sqrt sn * sqrt S)); [field; lra|]. rewrite E. field. lra. }
  rewrite Edt. unfold quarter_clamp, Rltb. cbn [sofZ spi R_ops R_trig]. destruct (Rlt_dec (t + dt) 0); [reflexivity|]. destruct (Rlt_dec (PI / 2) (t + dt)); reflexivity.
Qed.

Lemma snummax_big : prim_tol < Rabs (snummax : R).
Proof.
  pose proof prim_tol_bound as [_ H]. unfold snummax. cbn [sofZ R_ops]. set (z := ((2 ^ 53 - 1) * 2 ^ 971)%Z).
  assert (Hz : 1 <= IZR z) by (apply IZR_le; vm_compute; discriminate). rewrite Rabs_right by lra. lra.
Qed.

(** The iteration stays at the parameter of a point of the ellipse. *)
Lemma el_step_fixed d (c : ellipse R (vec R d)) p t : orthonormal2 (el_x c) (el_y c) -> 0 < el_minor c <= el_major c ->
  prim_tol < el_minor c ^ 2 / el_major c ^ 4 -> 0 <= t <= PI / 2 ->
  along (el_center c) (el_x c) p = el_major c * cos t -> along (el_center c) (el_y c) p = el_minor c * sin t ->
  el_step c p (el_x c) (el_y c) t = Ok (t, 0).
Proof.
  intros Ho Hm Htol Ht Hx Hy. rewrite el_step_frame by (exact Ho || lra). destruct (el_curv d c t Ho ltac:(lra) ltac:(lra)) as [HS _]. 
  cbv zeta. rewrite Hx, Hy. set (a := el_major c) in *. set (b := el_minor c) in *. set (S := a ^ 2 * sin t ^ 2 + b ^ 2 * cos t ^ 2) in *.
  assert (HSa : S <= a ^ 2).
  { assert (E : a ^ 2 = a ^ 2 * sin t ^ 2 + a ^ 2 * cos t ^ 2) by (rewrite <- Rmult_plus_distr_l; pose proof (cs1 t); replace (sin t ^ 2 + cos t ^ 2) with 1 by lra; ring).
    rewrite E. unfold S. pose proof (pow2_ge_0 (cos t)). assert (b ^ 2 <= a ^ 2) by (apply pow_incr; lra). nra. }
  assert (HS3 : 0 < S ^ 3) by (apply pow_lt; exact HS). assert (Ha2 : 0 < a ^ 2) by (apply pow_lt; lra). assert (Hb2 : 0 < b ^ 2) by (apply pow_lt; lra).
  assert (Hcond : prim_tol < a ^ 2 * b ^ 2 / S ^ 3).
  { eapply Rlt_le_trans; [exact Htol|]. replace (b ^ 2 / a ^ 4) with (a ^ 2 * b ^ 2 / (a ^ 2) ^ 3) by (field; lra).
    apply Rmult_le_compat_l; [nra|]. apply Rinv_le_contravar; [exact HS3|]. apply pow_incr. lra. }
  destruct (Rlt_dec prim_tol (a ^ 2 * b ^ 2 / S ^ 3)) as [_|N]; [|contradiction].
  set (qx := S / a * cos t). set (qy := S / b * sin t).
  replace (a * cos t - (a - S / a) * cos t) with qx by (unfold qx; ring). replace (b * sin t - (b - S / b) * sin t) with qy by (unfold qy; ring).
  assert (Hz : Ratan2 (qx * qy - qy * qx) (qx * qx + qy * qy) = 0).
  { replace (qx * qy - qy * qx) with 0 by ring. unfold Ratan2. destruct (Rlt_dec 0 _); [unfold Rdiv; rewrite Rmult_0_l; apply atan_0|].
    destruct (Rlt_dec _ 0); [nra|]. destruct (Rlt_dec 0 0); lra. }
  rewrite Hz, Rmult_0_r, Rplus_0_r. unfold quarter_clamp. destruct (Rlt_dec t 0); [lra|]. destruct (Rlt_dec (PI / 2) t); [lra|reflexivity].
Qed.
Lemma el_loop_fixed d (c : ellipse R (vec R d)) p t dt n : el_step c p (el_x c) (el_y c) t = Ok (t, 0) -> (2 <= n)%nat ->
  el_loop n c p (el_x c) (el_y c) t dt = Ok t.
Proof.
  intros E Hn. destruct n as [|[|n]]; try lia. pose proof prim_tol_bound as [Hp _]. cbn [el_loop]. rewrite !sabs_R. cbn [slt R_ops].
  destruct (Rltb_spec prim_tol (Rabs dt)); [|reflexivity]. rewrite E, bind_Ok. rewrite sabs_R, Rabs_R0. rewrite Rltb_false by lra. reflexivity.
Qed.

(** The point reflected to the first quadrant. *)
Definition el_quadrant {d} (c : ellipse R (vec R d)) (p : vec R d) : vec R d :=
  let x := along (el_center c) (el_x c) p in let y := along (el_center c) (el_y c) p in
  let p2 := if Rlt_dec x 0 then psub p (pmul (2 * x) (el_x c)) else p in
  if Rlt_dec y 0 then psub p2 (pmul (2 * y) (el_y c)) else p2.
Lemma el_quadrant_along d (c : ellipse R (vec R d)) p : orthonormal2 (el_x c) (el_y c) ->
  along (el_center c) (el_x c) (el_quadrant c p) = Rabs (along (el_center c) (el_x c) p) /\ along (el_center c) (el_y c) (el_quadrant c p) = Rabs (along (el_center c) (el_y c) p).
Proof.
  intros (Hx & Hy & Hxy). unfold el_quadrant. cbv zeta. set (x := along (el_center c) (el_x c) p). set (y := along (el_center c) (el_y c) p).
  assert (Ex : inner (psub p (el_center c)) (el_x c) = x) by reflexivity. assert (Ey : inner (psub p (el_center c)) (el_y c) = y) by reflexivity.
  clearbody x y. rewrite inner_sub_l in Ex, Ey.
  destruct (Rlt_dec x 0), (Rlt_dec y 0); unfold along; bilin; rewrite ?(inner_comm _ (el_y c) (el_x c)), ?Hx, ?Hy, ?Hxy;
    rewrite ?(Rabs_left x), ?(Rabs_left y), ?(Rabs_right x), ?(Rabs_right y) by lra; lra.
Qed.
Definition el_unflip (x y t : R) : R := let t := if Rlt_dec x 0 then PI - t else t in if Rlt_dec y 0 then 2 * PI - t else t.
Lemma el_inverse_frame d (c : ellipse R (vec R d)) p lo hi fuel : orthonormal2 (el_x c) (el_y c) -> lo <= hi ->
  el_approximate_inverse_evaluate fuel c p lo hi =
    (do t <- el_loop 100 c (el_quadrant c p) (el_x c) (el_y c) (PI / 4) snummax;
    do t <- raise fuel (el_unflip (along (el_center c) (el_x c) p) (along (el_center c) (el_y c) p) t) lo;
    end_or (el_evaluate c) p lo hi t).
Proof.
  intros (Hx & Hy & Hxy) Hl. unfold el_approximate_inverse_evaluate. cbn [sle R_ops]. rewrite Rleb_true by exact Hl. cbn [assert_ bind].
  unfold pnorm, sqnorm. rewrite !pdot_inner, Hx, Hy. cbn [ssqrt R_ops]. rewrite sqrt_1. unfold pdivs. cbn [seq_ s0 s1 sdiv R_ops]. rewrite Reqb_false by lra. cbn [bind].
  assert (E1 : forall w : vec R d, pmul (1 / 1) w = w) by (intros w; vext; field). rewrite !E1. cbv zeta. rewrite !along_pdot_r.
  set (x := along (el_center c) (el_x c) p). set (y := along (el_center c) (el_y c) p). cbn [slt smul sofZ spi sdiv R_ops R_trig]. unfold Rltb.
  unfold el_quadrant, el_unflip. fold x y. destruct (Rlt_dec x 0), (Rlt_dec y 0); reflexivity.
Qed.

(** From an angle to the nearest point of the arc. *)
Lemma arc_nearest d (f : R -> vec R d) (ev : R -> res (vec R d)) p lo hi psi : (forall s, ev s = Ok (f s)) -> lo <= hi -> psi <= lo + 2 * PI ->
  (forall a b, cos (b - psi) <= cos (a - psi) -> edist p (f a) <= edist p (f b)) ->
  exists n, forall fuel, (n <= fuel)%nat -> exists t q, (do t <- raise fuel psi lo; end_or ev p lo hi t) = Ok t /\ lo <= t <= hi /\ ev t = Ok q /\ forall x qx, lo <= x <= hi -> ev x = Ok qx -> edist p q <= edist p qx.
Proof.
  intros Ef Hl Hp Key. destruct (raise_spec psi lo) as [n Hn]. exists n. intros fuel Hf. destruct (Hn fuel Hf) as (k & E & Hk & Hlo1 & Hor).
  rewrite E, bind_Ok. destruct (end_or_spec d f ev p lo hi _ Ef Hl Hlo1) as (r & Er & Hrr & Hin & Hout).
  exists r, (f r). split; [exact Er|]. split; [exact Hrr|]. split; [apply Ef|]. intros s qs Hs Eqs. rewrite Ef in Eqs. apply Ok_inj in Eqs. subst qs.
  destruct (Rle_dec (psi + IZR k * (2 * PI)) hi) as [Hh|Hh].
  - rewrite (Hin Hh) in *. apply Key. replace (psi + IZR k * (2 * PI) - psi) with (0 + IZR k * (2 * PI)) by ring. rewrite cos_period_Z, cos_0.
    apply COS_bound.
  - destruct (Hout ltac:(lra)) as [H1 H2].
    assert (Hm : cos (s - psi) <= Rmax (cos (lo - psi)) (cos (hi - psi))).
    { destruct Hor as [-> | Hor].
      - apply (cos_ends _ _ _ (-1)); [lra| |]; lra.
      - apply (cos_ends _ _ _ (k - 1)); rewrite ?minus_IZR; lra. }
    unfold Rmax in Hm. destruct (Rle_dec (cos (lo - psi)) (cos (hi - psi))).
    + eapply Rle_trans; [exact H2|now apply Key].
    + eapply Rle_trans; [exact H1|now apply Key].
Qed.

(** Equal radii: two iterations reach the angle of the point. *)
Lemma angle_unique a b : cos a = cos b -> sin a = sin b -> Rabs (a - b) < 2 * PI -> a = b.
Proof.
  intros Hc Hs H. assert (E : cos (a - b) = 1) by (rewrite cos_minus, Hc, Hs; pose proof (cs1 b); lra).
  pose proof PI_RGT_0. destruct (Req_dec (a - b) 0) as [|N]; [lra|exfalso]. rewrite <- cos_abs in E. pose proof (Rabs_pos_lt _ N).
  destruct (Rle_dec (Rabs (a - b)) PI).
  - assert (cos (Rabs (a - b)) < cos 0) by (apply cos_decreasing_1; lra). rewrite cos_0 in *. lra.
  - assert (cos PI < 1) by (rewrite cos_PI; lra). 
    assert (E2 : cos (2 * PI - Rabs (a - b)) = 1). { replace (2 * PI - Rabs (a - b)) with (- Rabs (a - b) + IZR 1 * (2 * PI)) by (simpl; ring). now rewrite cos_period_Z, cos_neg. }
    assert (cos (2 * PI - Rabs (a - b)) < cos 0) by (apply cos_decreasing_1; lra). rewrite cos_0 in *. lra.
Qed.
Lemma atan2_quadrant x y : 0 <= x -> 0 <= y -> 0 <= Ratan2 y x <= PI / 2.
Proof.
  intros Hx Hy. pose proof PI_RGT_0. unfold Ratan2. destruct (Rlt_dec 0 x).
  - pose proof (atan_bound (y / x)). assert (0 <= y / x) by (apply Rmult_le_pos; [lra|left; now apply Rinv_0_lt_compat]).
    assert (0 <= atan (y / x)). { rewrite <- atan_0. destruct H1 as [H1|H1]; [left; now apply atan_increasing|right; now rewrite H1]. } lra.
  - destruct (Rlt_dec x 0); [lra|]. destruct (Rlt_dec 0 y); [lra|]. destruct (Rlt_dec y 0); lra.
Qed.

Lemma el_step_equal d (c : ellipse R (vec R d)) p t : orthonormal2 (el_x c) (el_y c) -> 0 < el_major c -> el_minor c = el_major c ->
  prim_tol < / el_major c ^ 2 -> 0 <= t <= PI / 2 ->
  0 <= along (el_center c) (el_x c) p -> 0 <= along (el_center c) (el_y c) p ->
  0 < along (el_center c) (el_x c) p ^ 2 + along (el_center c) (el_y c) p ^ 2 ->
  let phi := Ratan2 (along (el_center c) (el_y c) p) (along (el_center c) (el_x c) p) in
  el_step c p (el_x c) (el_y c) t = Ok (phi, phi - t).
Proof.
  intros Ho Ha Eb Htol Ht Hx Hy Hp phi. rewrite el_step_frame by (exact Ho || lra). cbv zeta. rewrite Eb. set (a := el_major c) in *.
  set (x := along (el_center c) (el_x c) p) in *. set (y := along (el_center c) (el_y c) p) in *.
  replace (a ^ 2 * sin t ^ 2 + a ^ 2 * cos t ^ 2) with (a ^ 2) by (pose proof (cs1 t); transitivity (a ^ 2 * (cos t * cos t + sin t * sin t)); [rewrite (cs1 t); ring|ring]).
  replace (a ^ 2 * a ^ 2 / (a ^ 2) ^ 3) with (/ a ^ 2) by (field; lra). destruct (Rlt_dec prim_tol (/ a ^ 2)) as [_|N]; [|contradiction].
  replace (a - a ^ 2 / a) with 0 by (field; lra). replace (a ^ 2 / a) with a by (field; lra). replace (a ^ 2 / (a * a)) with 1 by (field; lra).
  rewrite !Rmult_0_l, !Rminus_0_r, Rmult_1_l. pose proof (atan2_polar y x) as [Px Py]. fold phi in Px, Py. pose proof (atan2_quadrant x y Hx Hy) as Hq. fold phi in Hq.
  set (rho := sqrt (x * x + y * y)) in *. assert (Hrho : 0 < rho) by (apply sqrt_lt_R0; lra). pose proof PI_RGT_0 as HP.
  assert (E1 : a * cos t * y - a * sin t * x = (a * rho) * sin (phi - t)) by (rewrite sin_minus, <- Px, <- Py; ring).
  assert (E2 : a * cos t * x + a * sin t * y = (a * rho) * cos (phi - t)) by (rewrite cos_minus, <- Px, <- Py; ring).
  rewrite E1, E2. assert (Har : 0 < a * rho) by nra. destruct (atan2_of_polar (a * rho) (phi - t) Har) as [Ec Es].
  assert (Eth : Ratan2 (a * rho * sin (phi - t)) (a * rho * cos (phi - t)) = phi - t).
  { apply angle_unique; [exact Ec|exact Es|]. pose proof (atan2_range (a * rho * sin (phi - t)) (a * rho * cos (phi - t))). apply Rabs_def1; lra. }
  rewrite Eth. replace (t + (phi - t)) with phi by ring. unfold quarter_clamp. destruct (Rlt_dec phi 0); [lra|]. destruct (Rlt_dec (PI / 2) phi); [lra|reflexivity].
Qed.

Lemma el_loop_equal d (c : ellipse R (vec R d)) p n : orthonormal2 (el_x c) (el_y c) -> 0 < el_major c -> el_minor c = el_major c ->
  prim_tol < / el_major c ^ 2 -> 0 <= along (el_center c) (el_x c) p -> 0 <= along (el_center c) (el_y c) p ->
  0 < along (el_center c) (el_x c) p ^ 2 + along (el_center c) (el_y c) p ^ 2 -> (3 <= n)%nat ->
  el_loop n c p (el_x c) (el_y c) (PI / 4) snummax = Ok (Ratan2 (along (el_center c) (el_y c) p) (along (el_center c) (el_x c) p)).
Proof.
  intros Ho Ha Eb Htol Hx Hy Hp Hn. destruct n as [|n]; [lia|]. pose proof PI_RGT_0. cbn [el_loop]. rewrite sabs_R. cbn [slt R_ops].
  rewrite Rltb_true by apply snummax_big. rewrite (el_step_equal d c p (PI / 4)) by (assumption || lra). rewrite bind_Ok.
  apply el_loop_fixed; [|lia]. rewrite el_step_equal; try assumption; [|now apply atan2_quadrant]. f_equal. f_equal. ring.
Qed.

Lemma el_unflip_spec x y phi : sqrt (x * x + y * y) * cos phi = Rabs x -> sqrt (x * x + y * y) * sin phi = Rabs y -> 0 <= phi <= PI / 2 ->
  let psi := el_unflip x y phi in 0 <= psi <= 2 * PI /\ sqrt (x * x + y * y) * cos psi = x /\ sqrt (x * x + y * y) * sin psi = y.
Proof.
  intros Hx Hy Hp psi. unfold psi, el_unflip. cbv zeta. pose proof PI_RGT_0.
  assert (C2 : forall z, cos (2 * PI - z) = cos z). { intros z. replace (2 * PI - z) with (- z + IZR 1 * (2 * PI)) by (simpl; ring). now rewrite cos_period_Z, cos_neg. }
  assert (S2 : forall z, sin (2 * PI - z) = - sin z). { intros z. replace (2 * PI - z) with (- z + IZR 1 * (2 * PI)) by (simpl; ring). now rewrite sin_period_Z, sin_neg. }
  assert (C1 : forall z, cos (PI - z) = - cos z). { intros z. replace (PI - z) with (- z + PI) by ring. now rewrite neg_cos, cos_neg. }
  destruct (Rlt_dec x 0), (Rlt_dec y 0); rewrite ?(Rabs_left x) in Hx by lra; rewrite ?(Rabs_left y) in Hy by lra;
    rewrite ?(Rabs_right x) in Hx by lra; rewrite ?(Rabs_right y) in Hy by lra; rewrite ?C2, ?S2, ?C1, ?sin_PI_x; split; lra.
Qed.

Lemma ellipse_equal_nearest d (c : ellipse R (vec R d)) p lo hi : orthonormal2 (el_x c) (el_y c) -> 0 < el_major c -> el_minor c = el_major c ->
  prim_tol < / el_major c ^ 2 -> 0 <= lo -> lo <= hi ->
  exists n, forall fuel, (n <= fuel)%nat -> exists t q, el_approximate_inverse_evaluate fuel c p lo hi = Ok t /\ lo <= t <= hi /\ el_evaluate c t = Ok q /\ forall x qx, lo <= x <= hi -> el_evaluate c x = Ok qx -> edist p q <= edist p qx.
Proof.
  intros Ho Ha Eb Htol Hlo Hl. pose proof PI_RGT_0 as HP.
  destruct (el_quadrant_along d c p Ho) as [Qx Qy]. set (x := along (el_center c) (el_x c) p) in *. set (y := along (el_center c) (el_y c) p) in *.
  assert (Habs : forall w : R, Rabs w * Rabs w = w * w) by (intros w; rewrite <- Rabs_mult; apply Rabs_right; nra).
  assert (L : exists phi, el_loop 100 c (el_quadrant c p) (el_x c) (el_y c) (PI / 4) snummax = Ok phi /\ 0 <= phi <= PI / 2 /\ sqrt (x * x + y * y) * cos phi = Rabs x /\ sqrt (x * x + y * y) * sin phi = Rabs y).
  { destruct (Rlt_dec 0 (Rabs x ^ 2 + Rabs y ^ 2)) as [Hpos|Hz].
    - exists (Ratan2 (Rabs y) (Rabs x)). split.
      + rewrite (el_loop_equal d c (el_quadrant c p) 100 Ho Ha Eb Htol); [now rewrite Qx, Qy| | | |lia]; rewrite ?Qx, ?Qy; [apply Rabs_pos|apply Rabs_pos|exact Hpos].
      + split; [apply atan2_quadrant; apply Rabs_pos|]. pose proof (atan2_polar (Rabs y) (Rabs x)) as [E1 E2]. rewrite !Habs in E1, E2. now split.
    - assert (Zx : x = 0) by (pose proof (Habs x); pose proof (Habs y); nra). assert (Zy : y = 0) by (pose proof (Habs x); pose proof (Habs y); nra).
      exists (PI / 4). rewrite Zx, Zy in *. rewrite Rabs_R0 in *. split; [|split; [lra|rewrite Rmult_0_l, Rplus_0_r, sqrt_0; lra]].
      apply el_loop_fixed; [|lia]. rewrite el_step_frame by (exact Ho || lra). cbv zeta. rewrite Qx, Qy, Eb. set (a := el_major c) in *.
      replace (a ^ 2 * sin (PI / 4) ^ 2 + a ^ 2 * cos (PI / 4) ^ 2) with (a ^ 2) by (transitivity (a ^ 2 * (cos (PI / 4) * cos (PI / 4) + sin (PI / 4) * sin (PI / 4))); [rewrite (cs1 (PI / 4)); ring|ring]).
      replace (a ^ 2 * a ^ 2 / (a ^ 2) ^ 3) with (/ a ^ 2) by (field; lra). destruct (Rlt_dec prim_tol (/ a ^ 2)) as [_|N]; [|contradiction].
      replace (a - a ^ 2 / a) with 0 by (field; lra). rewrite !Rmult_0_l, !Rminus_0_r, !Rmult_0_r, Rminus_0_r, Rplus_0_r.
      assert (Z : Ratan2 0 0 = 0) by (unfold Ratan2; destruct (Rlt_dec 0 0); [lra|reflexivity]). rewrite Z, Rmult_0_r, Rplus_0_r.
      unfold quarter_clamp. destruct (Rlt_dec (PI / 4) 0); [lra|]. destruct (Rlt_dec (PI / 2) (PI / 4)); [lra|reflexivity]. }
  destruct L as (phi & EL & Hphi & Cx & Cy). destruct (el_unflip_spec x y phi Cx Cy Hphi) as (Hpsi & Px & Py). set (psi := el_unflip x y phi) in *.
  destruct (arc_nearest d (el_pt c) (el_evaluate c) p lo hi psi (el_eval c) Hl ltac:(lra)) as [n Hn].
  { intros s1 s2 Hcos. apply edist_le_sq. unfold el_pt. rewrite !edist_at2 by exact Ho. fold x y. rewrite Eb. set (a := el_major c) in *.
    assert (F : forall s, a * cos s * x + a * sin s * y = a * sqrt (x * x + y * y) * cos (s - psi)).
    { intros s. rewrite cos_minus. set (h := sqrt (x * x + y * y)) in *. transitivity (a * (cos s * (h * cos psi) + sin s * (h * sin psi))); [now rewrite Px, Py; ring|ring]. }
    rewrite !F. assert (G : forall s, a * cos s * (a * cos s) + a * sin s * (a * sin s) = a ^ 2) by (intros s; transitivity (a ^ 2 * (cos s * cos s + sin s * sin s)); [ring|rewrite cs1; ring]).
    pose proof (G s1). pose proof (G s2). assert (0 <= a * sqrt (x * x + y * y)) by (apply Rmult_le_pos; [lra|apply sqrt_pos]). nra. }
  exists n. intros fuel Hf. destruct (Hn fuel Hf) as (t & q & E & R). exists t, q. split; [|exact R].
  rewrite el_inverse_frame by assumption. rewrite EL, bind_Ok. exact E.
Qed.

(** A large ellipse fails the assertion on the curvature. *)
Lemma ellipse_large d (c : ellipse R (vec R d)) p lo hi fuel : orthonormal2 (el_x c) (el_y c) -> 0 < el_major c -> el_minor c = el_major c ->
  / el_major c ^ 2 <= prim_tol -> lo <= hi -> el_approximate_inverse_evaluate fuel c p lo hi = Undef.
Proof.
  intros Ho Ha Eb Htol Hl. rewrite el_inverse_frame by assumption. change 100%nat with (S 99). cbn [el_loop]. rewrite sabs_R. cbn [slt R_ops].
  rewrite Rltb_true by apply snummax_big. rewrite el_step_frame by (exact Ho || lra). cbv zeta. rewrite Eb. set (a := el_major c) in *.
  replace (a ^ 2 * sin (PI / 4) ^ 2 + a ^ 2 * cos (PI / 4) ^ 2) with (a ^ 2) by (transitivity (a ^ 2 * (cos (PI / 4) * cos (PI / 4) + sin (PI / 4) * sin (PI / 4))); [rewrite (cs1 (PI / 4)); ring|ring]).
  replace (a ^ 2 * a ^ 2 / (a ^ 2) ^ 3) with (/ a ^ 2) by (field; lra). destruct (Rlt_dec prim_tol (/ a ^ 2)) as [N|_]; [lra|reflexivity].
Qed.
