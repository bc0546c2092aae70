(** Proofs about Circle.h and Ellipse.h. *)
From Coq Require Import Reals Lra Lia ZArith Psatz Bool.
From Coquelicot Require Import Coquelicot.
From Verif Require Import Monad MonadFacts Scalar ScalarFacts Spec SpecFacts SpecGeom SpecPrimitive ModelCurve ModelPrimitive CurveThms LineThms IntersectThms TrigFacts PrimitiveFacts.
Local Open Scope R_scope.

Ltac dlim := rewrite <- is_derive_Reals; auto_derive; [exact I || auto|try ring].

Definition ci_pt {d} (c : circle R (vec R d)) (t : R) : vec R d := at2 (ci_center c) (ci_x c) (ci_y c) (ci_radius c * cos t) (ci_radius c * sin t).
Definition ci_pt1 {d} (c : circle R (vec R d)) (t : R) : vec R d := at2 p0 (ci_x c) (ci_y c) (- ci_radius c * sin t) (ci_radius c * cos t).
Definition ci_pt2 {d} (c : circle R (vec R d)) (t : R) : vec R d := at2 p0 (ci_x c) (ci_y c) (- ci_radius c * cos t) (- ci_radius c * sin t).
Lemma ci_eval {d} (c : circle R (vec R d)) t : ci_evaluate c t = Ok (ci_pt c t).
Proof. unfold ci_evaluate, ci_pt. apply f_equal. vext. cbn [scos ssin R_trig]. ring. Qed.
Lemma ci_eval1 {d} (c : circle R (vec R d)) t : ci_evaluate_derivative c t = Ok (ci_pt1 c t).
Proof. unfold ci_evaluate_derivative, ci_pt1. apply f_equal. vext. cbn [scos ssin R_trig sopp s1 R_ops]. ring. Qed.
Lemma ci_eval2 {d} (c : circle R (vec R d)) t : ci_evaluate_2nd_derivative c t = Ok (ci_pt2 c t).
Proof. unfold ci_evaluate_2nd_derivative, ci_pt2. apply f_equal. vext. cbn [scos ssin R_trig sopp s1 R_ops]. ring. Qed.

Lemma vderiv_at2 {d} (o a b : vec R d) (x y : R -> R) t x' y' :
  derivable_pt_lim x t x' -> derivable_pt_lim y t y' -> vderiv (fun s => at2 o a b (x s) (y s)) t (at2 p0 a b x' y').
Proof.
  intros Hx Hy. apply (vderiv_at3 o a b p0 x y (fun _ => 0) t x' y' 0); try assumption.
  - apply derivable_pt_lim_const.
  - intros s. vext. ring.
  - vext. ring.
Qed.

Lemma circle_derivatives d (c : circle R (vec R d)) : exists f f1 f2,
  (forall t, ci_evaluate c t = Ok (f t) /\ ci_evaluate_derivative c t = Ok (f1 t) /\ ci_evaluate_2nd_derivative c t = Ok (f2 t)) /\
  two_derivatives f f1 f2.
Proof.
  exists (ci_pt c), (ci_pt1 c), (ci_pt2 c). split; [intros t; now rewrite ci_eval, ci_eval1, ci_eval2|].
  intros t. split; apply vderiv_at2; dlim.
Qed.

Lemma circle_points d (c : circle R (vec R d)) t : orthonormal2 (ci_x c) (ci_y c) -> exists q, ci_evaluate c t = Ok q /\
  edist q (ci_center c) = Rabs (ci_radius c) /\ in_plane (ci_center c) (ci_x c) (ci_y c) q /\
  along (ci_center c) (ci_x c) q = ci_radius c * cos t /\ along (ci_center c) (ci_y c) q = ci_radius c * sin t.
Proof.
  intros H. exists (ci_pt c t). split; [apply ci_eval|]. split; [|split].
  - rewrite edist_sym. rewrite <- (sqrt_pow2 (edist _ _)) by apply edist_pos. unfold ci_pt. rewrite edist_at2 by exact H.
    rewrite edist_refl. unfold along. rewrite !inner_sub_l. rewrite <- (sqrt_sq_abs (cos t) (sin t)) by apply cs1. f_equal. ring.
  - intros n Ha Hb. unfold ci_pt. rewrite along_at2, Ha, Hb. ring.
  - now apply along_at2_frame.
Qed.

(** Taking the nearer end of the range. *)
Lemma end_or_spec d (f : R -> vec R d) (ev : R -> res (vec R d)) p lo hi t : (forall s, ev s = Ok (f s)) -> lo <= hi -> lo <= t ->
  exists r, end_or ev p lo hi t = Ok r /\ lo <= r <= hi /\
    (t <= hi -> r = t) /\ (hi < t -> edist p (f r) <= edist p (f lo) /\ edist p (f r) <= edist p (f hi)).
Proof.
  intros E Hl Ht. unfold end_or. cbn [slt R_ops]. destruct (Rltb_spec hi t) as [H|H].
  - rewrite !E, !bind_Ok. rewrite !sqnorm_edist. rewrite (edist_sym (f lo) p), (edist_sym (f hi) p).
    destruct (Rltb_spec (edist p (f lo) ^ 2) (edist p (f hi) ^ 2)) as [H'|H'].
    + exists lo. split; [reflexivity|]. split; [lra|]. split; [lra|]. intros _. split; [lra|]. apply edist_le_sq. lra.
    + exists hi. split; [reflexivity|]. split; [lra|]. split; [lra|]. intros _. split; [|lra]. apply edist_le_sq. lra.
  - exists t. split; [reflexivity|]. split; [lra|]. split; [reflexivity|lra].
Qed.

Lemma circle_dist d (c : circle R (vec R d)) p t : orthonormal2 (ci_x c) (ci_y c) ->
  let x := along (ci_center c) (ci_x c) p in let y := along (ci_center c) (ci_y c) p in
  edist p (ci_pt c t) ^ 2 = edist p (ci_center c) ^ 2 + ci_radius c ^ 2 - 2 * ci_radius c * (sqrt (x * x + y * y) * cos (t - Ratan2 y x)).
Proof.
  intros H x y. unfold ci_pt. rewrite edist_at2 by exact H. fold x y. rewrite <- polar_dot.
  transitivity (edist p (ci_center c) ^ 2 + ci_radius c ^ 2 * (cos t * cos t + sin t * sin t) - 2 * ci_radius c * (x * cos t + y * sin t)); [ring|].
  rewrite cs1. ring.
Qed.

Lemma circle_range d (c : circle R (vec R d)) p lo hi : lo <= hi -> exists n, forall fuel, (n <= fuel)%nat ->
  exists t, ci_approximate_inverse_evaluate fuel c p lo hi = Ok t /\ lo <= t <= hi.
Proof.
  intros Hl. unfold ci_approximate_inverse_evaluate. cbn [sle R_ops]. rewrite Rleb_true by exact Hl. cbn [assert_ bind].
  cbv zeta. set (y := satan2 _ _). destruct (raise_spec y lo) as [n Hn]. exists n. intros fuel Hf. destruct (Hn fuel Hf) as (k & E & _ & Hlo & _).
  rewrite E, bind_Ok. destruct (end_or_spec d (ci_pt c) (ci_evaluate c) p lo hi _ (ci_eval c) Hl Hlo) as (r & Er & Hr & _). eauto.
Qed.

Lemma circle_nearest d (c : circle R (vec R d)) p lo hi : orthonormal2 (ci_x c) (ci_y c) -> 0 <= ci_radius c -> - PI <= lo -> lo <= hi ->
  exists n, forall fuel, (n <= fuel)%nat -> exists t q, ci_approximate_inverse_evaluate fuel c p lo hi = Ok t /\ lo <= t <= hi /\
    ci_evaluate c t = Ok q /\ forall x qx, lo <= x <= hi -> ci_evaluate c x = Ok qx -> edist p q <= edist p qx.
Proof.
  intros Ho Hr Hlo Hl. unfold ci_approximate_inverse_evaluate. cbn [sle R_ops]. rewrite Rleb_true by exact Hl. cbn [assert_ bind].
  cbv zeta. rewrite !along_pdot_l. set (x := along (ci_center c) (ci_x c) p). set (y := along (ci_center c) (ci_y c) p). cbn [satan2 R_trig]. set (phi := Ratan2 y x).
  destruct (raise_spec phi lo) as [n Hn]. exists n. intros fuel Hf. destruct (Hn fuel Hf) as (k & E & Hk & Hlo1 & Hor).
  rewrite E, bind_Ok. destruct (end_or_spec d (ci_pt c) (ci_evaluate c) p lo hi _ (ci_eval c) Hl Hlo1) as (r & Er & Hrr & Hin & Hout).
  exists r, (ci_pt c r). split; [exact Er|]. split; [exact Hrr|]. split; [apply ci_eval|]. intros s qs Hs Eqs. rewrite ci_eval in Eqs. apply Ok_inj in Eqs. subst qs.
  assert (Hrho : 0 <= ci_radius c * sqrt (x * x + y * y)) by (apply Rmult_le_pos; [exact Hr|apply sqrt_pos]).
  assert (Key : forall a b, cos (b - phi) <= cos (a - phi) -> edist p (ci_pt c a) <= edist p (ci_pt c b)).
  { intros a b Hab. apply edist_le_sq. rewrite !circle_dist by exact Ho. fold x y. fold phi. nra. }
  destruct (Rle_dec (phi + IZR k * (2 * PI)) hi) as [Hh|Hh].
  - rewrite (Hin Hh) in *. apply Key. replace (phi + IZR k * (2 * PI) - phi) with (0 + IZR k * (2 * PI)) by ring. rewrite cos_period_Z, cos_0.
    apply COS_bound.
  - destruct (Hout ltac:(lra)) as [H1 H2]. pose proof (atan2_range y x) as Hp. fold phi in Hp. pose proof PI_RGT_0.
    assert (Hm : cos (s - phi) <= Rmax (cos (lo - phi)) (cos (hi - phi))).
    { destruct Hor as [-> | Hor].
      - apply (cos_ends _ _ _ (-1)); [lra| |]; lra.
      - apply (cos_ends _ _ _ (k - 1)); rewrite ?minus_IZR; lra. }
    unfold Rmax in Hm. destruct (Rle_dec (cos (lo - phi)) (cos (hi - phi))).
    + eapply Rle_trans; [exact H2|now apply Key].
    + eapply Rle_trans; [exact H1|now apply Key].
Qed.

Lemma circle_round_trip d (c : circle R (vec R d)) lo hi s q : orthonormal2 (ci_x c) (ci_y c) -> 0 <= ci_radius c -> - PI <= lo -> lo <= s <= hi ->
  ci_evaluate c s = Ok q ->
  exists n, forall fuel, (n <= fuel)%nat -> exists t, ci_approximate_inverse_evaluate fuel c q lo hi = Ok t /\ lo <= t <= hi /\ ci_evaluate c t = Ok q.
Proof.
  intros Ho Hr Hlo Hs Eq. destruct (circle_nearest d c q lo hi Ho Hr Hlo ltac:(lra)) as [n Hn]. exists n. intros fuel Hf.
  destruct (Hn fuel Hf) as (t & q' & E & Ht & Eq' & Hne). exists t. split; [exact E|]. split; [exact Ht|]. rewrite Eq'. f_equal. symmetry.
  apply edist_eq0. specialize (Hne s q Hs Eq). now rewrite edist_refl in Hne.
Qed.

(** * Periodic flags *)
Lemma sround_spec x : Rabs (x - IZR (sround x)) <= 1 / 2.
Proof.
  assert (E : sround x = if Rltb x 0 then Z.opp (sfloor (- x + 1 / 2)) else sfloor (x + 1 / 2)) by reflexivity. rewrite E.
  destruct (Rltb_spec x 0).
  - rewrite opp_IZR. pose proof (sfloor_R (- x + 1 / 2)). apply Rabs_le. lra.
  - pose proof (sfloor_R (x + 1 / 2)). apply Rabs_le. lra.
Qed.
Lemma prim_tol_R : prim_tol = 10 / IZR (2 ^ 52).
Proof. unfold prim_tol. rewrite seps_R. cbn [smul sofZ R_ops]. unfold Rdiv. ring. Qed.
Lemma prim_tol_bound : 0 < prim_tol < 1 / 100.
Proof.
  rewrite prim_tol_R. set (w := IZR (2 ^ 52)). assert (Hw : IZR 10000 < w) by (apply IZR_lt; reflexivity). simpl in Hw. clearbody w.
  assert (0 < / w) by (apply Rinv_0_lt_compat; lra). assert (w * / w = 1) by (apply Rinv_r; lra). unfold Rdiv. split; nra.
Qed.
Lemma winding_spec lo hi : exists b, winding_flag lo hi = Ok b /\ (b = true <-> whole_turns prim_tol lo hi).
Proof.
  pose proof PI_RGT_0 as HP. unfold winding_flag, ddiv. cbn [ssub smul sofZ spi s0 seq_ sdiv slt R_ops R_trig].
  rewrite Reqb_false by lra. rewrite bind_Ok. set (q := (hi - lo) / (2 * PI)). assert (Eq : hi - lo = 2 * PI * q) by (unfold q; field; lra).
  eexists. split; [reflexivity|]. rewrite sabs_R. destruct (Rltb_spec (Rabs (hi - lo - IZR (sround q) * 2 * PI)) prim_tol) as [H|H].
  - split; [intros _|reflexivity]. exists (sround q). replace (2 * PI * IZR (sround q)) with (IZR (sround q) * 2 * PI) by ring. exact H.
  - split; [discriminate|]. intros [k Hk]. exfalso. pose proof (sround_spec q) as Hs. pose proof prim_tol_bound as [_ Ht].
    assert (E3 : 3 <= 2 * PI) by (pose proof PI2_1; lra).
    assert (sround q = k); [|subst k; replace (2 * PI * IZR (sround q)) with (IZR (sround q) * 2 * PI) in Hk by ring; lra].
    rewrite Eq in Hk. replace (2 * PI * q - 2 * PI * IZR k) with (2 * PI * (q - IZR k)) in Hk by ring. rewrite Rabs_mult, (Rabs_right (2 * PI)) in Hk by lra.
    assert (Hq : Rabs (q - IZR k) < 1 / 100) by (pose proof (Rabs_pos (q - IZR k)); nra).
    apply Rabs_def2 in Hq. apply Rabs_le_between in Hs. apply eq_IZR. 
    assert (IZR (sround q) < IZR (k + 1)) by (rewrite plus_IZR; lra). assert (IZR (k - 1) < IZR (sround q)) by (rewrite minus_IZR; lra).
    apply lt_IZR in H0, H1. apply f_equal. lia.
Qed.

Lemma circle_initialize d (c : circle R (vec R d)) : orthonormal2 (ci_x c) (ci_y c) -> ci_lower c <= ci_upper c ->
  exists c', ci_initialize c = Ok c' /\ ci_center c' = ci_center c /\ ci_x c' = ci_x c /\ ci_y c' = ci_y c /\ ci_radius c' = ci_radius c /\
    ci_lower c' = ci_lower c /\ ci_upper c' = ci_upper c /\ (ci_periodic c' = true <-> whole_turns prim_tol (ci_lower c) (ci_upper c)).
Proof.
  intros (Ha & Hb & Hab) Hl. unfold ci_initialize, frame2_ok, sqnorm. rewrite !pdot_inner, Ha, Hb, Hab. pose proof prim_tol_bound as [Ht _].
  cbn [ssub s1 slt sle R_ops]. rewrite !sabs_R. replace (1 - 1) with 0 by ring. rewrite Rabs_R0, Rltb_true by exact Ht. cbn [andb assert_ bind].
  rewrite Rleb_true by exact Hl. cbn [assert_ bind]. destruct (winding_spec (ci_lower c) (ci_upper c)) as (b & E & Hb'). rewrite E, bind_Ok.
  eexists. split; [reflexivity|]. repeat split; apply Hb'.
Qed.
