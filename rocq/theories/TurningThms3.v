(** get_turning_angle of quadratic and cubic Bezier curves; failures. *)
From Coq Require Import Reals Lra Lia ZArith List Psatz Permutation.
From Verif Require Import Monad MonadFacts LoopFacts Scalar ScalarFacts Spec SpecFacts SpecGeom SpecAnalysis SpecTurning Polar BezierMath BezierFacts BezierThms BezierThms2 ModelCurve ModelBezier
  ModelPrimitive TrigFacts EllipseThms AnalysisThms AnalysisThms2 ModelTurning TurningFacts TurningThms TurningThms2.
Import ListNotations.
Local Open Scope R_scope.

Lemma tangent_of (pts : list (vec R 2)) f1 t : pts <> [] -> (forall t, vderiv (bernstein_curve pts) t (f1 t)) -> bz_evaluate_derivative (mk_bezier pts) t = Ok (f1 t).
Proof.
  intros Hne D1. destruct (bezier_derivatives 2 pts Hne) as (g & g1 & g2 & Eg & E1 & _ & G & _).
  rewrite E1. f_equal. apply vec_ext. intros i Hi. apply (vderiv_unique (bernstein_curve pts) t); [exact Hi| |apply D1].
  intros k Hk. eapply derivable_pt_lim_ext; [|exact (G t k Hk)]. intros x. cbv beta. specialize (Eg x). rewrite bezier_bernstein in Eg by exact Hne.
  assert (Oi : forall a b : vec R 2, Ok a = Ok b -> a = b) by congruence. now rewrite (Oi _ _ Eg).
Qed.

Definition comb (a b : R) (v w : vec R 2) : vec R 2 := padd (pmul a v) (pmul b w).
Lemma norm2_comb a b v w : norm2 (comb a b v w) * norm2 (comb a b v w) = a * a * (norm2 v * norm2 v) + 2 * (a * b) * inner v w + b * b * (norm2 w * norm2 w).
Proof. rewrite !norm2_sq, inner_2. unfold comb. rewrite !coord_add, !coord_mul by lia. cbn [sadd smul R_ops]. ring. Qed.
Lemma inner_comb n a b v w : inner n (comb a b v w) = a * inner n v + b * inner n w.
Proof. rewrite !inner_2. unfold comb. rewrite !coord_add, !coord_mul by lia. cbn [sadd smul R_ops]. ring. Qed.
Lemma inner_comm (v w : vec R 2) : inner v w = inner w v.
Proof. rewrite !inner_2. ring. Qed.
Lemma inner_self (v : vec R 2) : inner v v = norm2 v * norm2 v.
Proof. rewrite norm2_sq. apply inner_2. Qed.

(** Degree 2: the derivative is affine, so it stays in a half plane if it does not vanish. *)
Lemma quadratic_turning (pts : list (vec R 2)) f1 t0 t1 : length pts = 3%nat -> (forall t, vderiv (bernstein_curve pts) t (f1 t)) -> t0 <= t1 ->
  (forall t, t0 <= t <= t1 -> 0 < norm2 (f1 t)) -> exists theta, bz2_turning_angle (mk_bezier pts) t0 t1 = Ok theta /\ turning f1 t0 t1 theta.
Proof.
  intros HL Hf Ht Hz. assert (Hne : pts <> []) by (destruct pts; [discriminate|congruence]).
  unfold bz2_turning_angle. cbn [Nat.eqb negb]. rewrite !(proj1 (proj2 (bezier_deg2 2 pts _ HL))), !(tangent_of pts f1) by assumption. rewrite !bind_Ok. eexists. split; [reflexivity|].
  assert (Hd : forall t, f1 t = pmul 2 (comb (1 - t) t (delta (pt_at pts) 1) (delta (pt_at pts) 2))).
  { intros t. rewrite (derivative_hodo pts 1 f1 t HL (Hf t)). unfold hodo. rewrite HL. reflexivity. }
  assert (Ha : forall s, f1 (t0 + s * (t1 - t0)) = comb (1 - s) s (f1 t0) (f1 t1)).
  { intros s. rewrite !Hd. unfold comb. apply vec_ext; intros i Hi. rewrite !coord_add, !coord_mul, !coord_add, !coord_mul by exact Hi. cbn [sadd smul R_ops]. ring. }
  set (v := f1 t0) in *. set (w := f1 t1) in *. assert (Nv : 0 < norm2 v) by (apply Hz; lra). assert (Nw : 0 < norm2 w) by (apply Hz; lra).
  set (n := comb (norm2 w) (norm2 v) v w). set (k := norm2 v + norm2 w).
  assert (Hs : 0 <= norm2 v / k <= 1).
  { split; [apply Rlt_le, Rdiv_lt_0_compat; unfold k; lra|]. apply (Rmult_le_reg_r k); [unfold k; lra|]. unfold Rdiv. rewrite Rmult_assoc, Rinv_l by (unfold k; lra). unfold k; lra. }
  assert (Hn : 0 < norm2 n).
  { pose proof (Hz (t0 + norm2 v / k * (t1 - t0))) as P. rewrite Ha in P. replace (comb (1 - norm2 v / k) (norm2 v / k) v w) with (pmul (/ k) n) in P.
    - assert (0 < / k) by (apply Rinv_0_lt_compat; unfold k; lra). rewrite norm2_scale in P by lra. assert (0 < / k * norm2 n) by (apply P; nra). pose proof (norm2_pos n). nra.
    - unfold n, comb. apply vec_ext; intros i Hi. rewrite !coord_mul, !coord_add, !coord_mul by exact Hi. cbn [sadd smul R_ops]. unfold k. field. lra. }
  pose proof (norm2_comb (norm2 w) (norm2 v) v w) as Q. fold n in Q.
  assert (P0 : 0 < norm2 v * norm2 w + inner v w). { assert (0 < norm2 v * norm2 w) by nra. assert (0 < norm2 n * norm2 n) by nra. nra. }
  assert (Iv : 0 < inner n v). { rewrite inner_comm. unfold n. rewrite inner_comb, inner_self. replace (_ + _) with (norm2 v * (norm2 v * norm2 w + inner v w)) by ring. nra. }
  assert (Iw : 0 < inner n w). { rewrite inner_comm. unfold n. rewrite inner_comb, inner_self, (inner_comm w v). replace (_ + _) with (norm2 w * (norm2 v * norm2 w + inner v w)) by ring. nra. }
  rewrite (side_turn n v w Iv Iw). apply side_turning; [exact Ht| |].
  - intros i Hi t. apply (cont_ext (fun t => 2 * ((1 - t) * coord 2 i (delta (pt_at pts) 1) + t * coord 2 i (delta (pt_at pts) 2)))).
    + intros x. rewrite Hd. unfold comb. rewrite coord_mul, coord_add, !coord_mul by exact Hi. reflexivity.
    + reg.
  - intros t Ht'. destruct (Req_dec t0 t1) as [E|E].
    + replace t with t0 by lra. exact Iv.
    + replace t with (t0 + (t - t0) / (t1 - t0) * (t1 - t0)) by (field; lra). rewrite Ha, inner_comb. set (s := (t - t0) / (t1 - t0)).
      assert (0 <= s <= 1). { split; [apply Rmult_le_pos; [lra|left; apply Rinv_0_lt_compat; lra]|]. apply (Rmult_le_reg_r (t1 - t0)); [lra|]. unfold s, Rdiv. rewrite Rmult_assoc, Rinv_l by lra. lra. }
      destruct (Rle_dec s (1 / 2)); nra.
Qed.

(** Degree 3: the generic computation on the piece that subcurve returns. *)
Lemma cubic_unique (p q : list (vec R 2)) : length p = 4%nat -> length q = 4%nat -> (forall s, 0 <= s <= 1 -> bernstein_curve p s = bernstein_curve q s) -> p = q.
Proof.
  intros Hp Hq H. destruct (four_points p Hp) as (a & b & c & e & ->). destruct (four_points q Hq) as (a' & b' & c' & e' & ->).
  assert (K : forall i s, (i < 2)%nat -> coord 2 i (bernstein_curve [a; b; c; e] s) = (1 - s) ^ 3 * coord 2 i a + 3 * s * (1 - s) ^ 2 * coord 2 i b + 3 * s ^ 2 * (1 - s) * coord 2 i c + s ^ 3 * coord 2 i e).
  { intros i s Hi. rewrite <- (tri_pts_curve [a; b; c; e] 3) by reflexivity. cbn [repeat tri]. unfold albz. rewrite !coord_add, !coord_mul, !coord_add, !coord_mul, !coord_add, !coord_mul by exact Hi.
    cbn [sadd smul R_ops]. change (pt_at [a; b; c; e] (Z.of_nat 3 - 1 - 1 - 1)) with a. change (pt_at [a; b; c; e] (Z.of_nat 3 - 1 - 1)) with b. change (pt_at [a; b; c; e] (Z.of_nat 3 - 1)) with c. change (pt_at [a; b; c; e] (Z.of_nat 3)) with e. ring. }
  assert (K' : forall i s, (i < 2)%nat -> coord 2 i (bernstein_curve [a'; b'; c'; e'] s) = (1 - s) ^ 3 * coord 2 i a' + 3 * s * (1 - s) ^ 2 * coord 2 i b' + 3 * s ^ 2 * (1 - s) * coord 2 i c' + s ^ 3 * coord 2 i e').
  { intros i s Hi. rewrite <- (tri_pts_curve [a'; b'; c'; e'] 3) by reflexivity. cbn [repeat tri]. unfold albz. rewrite !coord_add, !coord_mul, !coord_add, !coord_mul, !coord_add, !coord_mul by exact Hi.
    cbn [sadd smul R_ops]. change (pt_at [a'; b'; c'; e'] (Z.of_nat 3 - 1 - 1 - 1)) with a'. change (pt_at [a'; b'; c'; e'] (Z.of_nat 3 - 1 - 1)) with b'. change (pt_at [a'; b'; c'; e'] (Z.of_nat 3 - 1)) with c'. change (pt_at [a'; b'; c'; e'] (Z.of_nat 3)) with e'. ring. }
  assert (E : forall i, (i < 2)%nat -> coord 2 i a = coord 2 i a' /\ coord 2 i b = coord 2 i b' /\ coord 2 i c = coord 2 i c' /\ coord 2 i e = coord 2 i e').
  { intros i Hi. pose proof (K i 0 Hi) as A0. pose proof (K i 1 Hi) as A1. pose proof (K i (1 / 3) Hi) as A2. pose proof (K i (2 / 3) Hi) as A3. rewrite H, K' in A0, A1, A2, A3 by (exact Hi || lra). simpl pow in *. lra. }
  repeat f_equal; apply vec_ext; intros i Hi; apply E; exact Hi.
Qed.
Lemma cubic_polygon (pts l : list (vec R 2)) t0 t1 : bz3_subcurve (mk_bezier pts) t0 t1 = Ok (mk_bezier l) -> length l = 4%nat ->
  bz3_turning_angle (mk_bezier pts) t0 t1 = polygon_turning l.
Proof.
  intros E Hl. unfold bz3_turning_angle. cbn [Nat.eqb negb]. rewrite E, bind_Ok. cbn [bz_pts mk_bezier]. destruct (four_points l Hl) as (a & b & c & e & ->).
  transitivity (Ok (0 + turn (psub b a) (psub c b) + turn (psub c b) (psub e c))); [|reflexivity].
  transitivity (Ok (turn (psub b a) (psub c b) + turn (psub c b) (psub e c))); [reflexivity|]. f_equal. ring.
Qed.
Lemma cubic_ends (pts : list (vec R 2)) t0 t1 : length pts = 4%nat -> (t0 = 0 /\ 0 < t1 <= 1) \/ (0 <= t0 < 1 /\ t1 = 1) ->
  bz3_turning_angle (mk_bezier pts) t0 t1 = bz_turning_angle (mk_bezier pts) t0 t1.
Proof.
  intros HL Ht. destruct (bezier3_subcurve_ends 2 pts t0 t1 HL Ht) as (l & E & Hl & Hv). rewrite (cubic_polygon pts l t0 t1 E Hl).
  unfold bz_turning_angle. cbn [Nat.eqb negb]. destruct (bezier_subcurve 2 (mk_bezier pts) t0 t1) as (l' & E' & Hl' & Hv'); [destruct pts; [discriminate|cbn; congruence]|lra|lra|].
  rewrite E', bind_Ok. cbn [bz_pts mk_bezier] in *. now rewrite (cubic_unique l l') by (congruence || (intros s _; now rewrite Hv, Hv')).
Qed.
Lemma cubic_interior (pts : list (vec R 2)) t0 t1 : length pts = 4%nat -> 0 < t0 < 1 -> t0 <= t1 < 1 ->
  bz3_turning_angle (mk_bezier pts) t0 t1 = bz_turning_angle (mk_bezier pts) t0 (t0 + (1 - t0) * t1).
Proof.
  intros HL H0 H1. destruct (bezier3_subcurve_value 2 pts t0 t1 HL H0 H1) as (l & E & Hl & Hv). rewrite (cubic_polygon pts l t0 t1 E Hl).
  unfold bz_turning_angle. cbn [Nat.eqb negb]. destruct (bezier_subcurve 2 (mk_bezier pts) t0 (t0 + (1 - t0) * t1)) as (l' & E' & Hl' & Hv'); [destruct pts; [discriminate|cbn; congruence]|nra|nra|].
  rewrite E', bind_Ok. cbn [bz_pts mk_bezier] in *. rewrite (cubic_unique l l'); [reflexivity|exact Hl|congruence|]. intros s _. rewrite Hv, Hv'. f_equal. ring.
Qed.

Lemma cubic_whole (pts : list (vec R 2)) : length pts = 4%nat -> bz3_turning_angle (mk_bezier pts) 0 1 = polygon_turning pts /\ bz_turning_angle (mk_bezier pts) 0 1 = polygon_turning pts.
Proof.
  intros HL. assert (E : bz3_turning_angle (mk_bezier pts) 0 1 = polygon_turning pts).
  { apply cubic_polygon; [|exact HL]. unfold bz3_subcurve, bz_lower, bz_upper. cbn [slt seq_ R_ops s0 s1]. rewrite Rltb_false, !Reqb_true by lra. reflexivity. }
  split; [exact E|]. rewrite <- cubic_ends; [exact E|exact HL|left; lra].
Qed.
Lemma derivative_exists (pts : list (vec R 2)) : pts <> [] -> exists f1, forall t, vderiv (bernstein_curve pts) t (f1 t).
Proof.
  intros Hne. destruct (bezier_derivatives 2 pts Hne) as (g & g1 & _ & Eg & _ & _ & G & _). exists g1. intros t k Hk.
  eapply derivable_pt_lim_ext; [|exact (G t k Hk)]. intros x. cbv beta. specialize (Eg x). rewrite bezier_bernstein in Eg by exact Hne.
  assert (Oi : forall a b : vec R 2, Ok a = Ok b -> a = b) by congruence. now rewrite (Oi _ _ Eg).
Qed.
Lemma cubic_derivative (a b c e : vec R 2) f1 t i : (forall t, vderiv (bernstein_curve [a; b; c; e]) t (f1 t)) -> (i < 2)%nat ->
  coord 2 i (f1 t) = 3 * ((1 - t) ^ 2 * (coord 2 i b - coord 2 i a) + 2 * t * (1 - t) * (coord 2 i c - coord 2 i b) + t ^ 2 * (coord 2 i e - coord 2 i c)).
Proof.
  intros Hf Hi. rewrite (derivative_hodo [a; b; c; e] 2 f1 t eq_refl (Hf t)). unfold hodo. cbn [length Nat.sub Z.of_nat]. change (Z.pos (Pos.of_succ_nat 2)) with 3%Z.
  cbn [repeat tri]. unfold albz. rewrite !coord_mul, !coord_add, !coord_mul, !coord_add, !coord_mul by exact Hi. cbn [sadd smul R_ops]. unfold delta. cbv [Z.sub Z.add Z.opp Z.pos_sub Pos.pred_double].
  rewrite !coord_sub by exact Hi. change (pt_at [a; b; c; e] 0) with a. change (pt_at [a; b; c; e] 1) with b. change (pt_at [a; b; c; e] 2) with c. change (pt_at [a; b; c; e] 3) with e.
  cbn [ssub R_ops]. ring.
Qed.

Definition P2 (x y : R) : vec R 2 := (x, (y, tt)).
Lemma cubic_cont (a b c e : vec R 2) f1 i : (forall t, vderiv (bernstein_curve [a; b; c; e]) t (f1 t)) -> (i < 2)%nat -> continuity (fun t => coord 2 i (f1 t)).
Proof.
  intros Hf Hi t. apply (cont_ext (fun t => IZR (Z.of_nat 3) * coord 2 i (hodo [a; b; c; e] (repeat t 2)))).
  - intros x. rewrite (derivative_hodo [a; b; c; e] 2 f1 x eq_refl (Hf x)), coord_mul by exact Hi. reflexivity.
  - apply continuity_pt_mult; [apply continuity_pt_const; intros x y; reflexivity|]. now apply tri_cont.
Qed.
Lemma polygon4 (a b c e : vec R 2) : polygon_turning [a; b; c; e] = Ok (0 + turn (psub b a) (psub c b) + turn (psub c b) (psub e c)).
Proof. reflexivity. Qed.

Lemma turn_P2 a b c e a' b' c' e' : turn (psub (P2 a b) (P2 c e)) (psub (P2 a' b') (P2 c' e')) =
  Ratan2 ((a - c) * (b' - e') - (b - e) * (a' - c')) ((a - c) * (a' - c') + (b - e) * (b' - e')).
Proof. unfold turn. rewrite !coord_sub by lia. reflexivity. Qed.

(** A tangent that turns right, a polygon that turns left. *)
Definition near_cusp : list (vec R 2) := [P2 0 0; P2 10 10; P2 1 10; P2 11 0].
Lemma near_cusp_turning : exists f1, (forall t, vderiv (bernstein_curve near_cusp) t (f1 t)) /\ (forall t, 0 <= t <= 1 -> 0 < norm2 (f1 t)) /\
  bz_turning_angle (mk_bezier near_cusp) 0 1 = Ok (3 * PI / 2) /\ bz3_turning_angle (mk_bezier near_cusp) 0 1 = Ok (3 * PI / 2) /\ turning f1 0 1 (- (PI / 2)).
Proof.
  destruct (derivative_exists near_cusp ltac:(discriminate)) as [f1 Hf]. exists f1. split; [exact Hf|].
  assert (Hx : forall t, coord 2 0 (f1 t) = 3 * (10 - 38 * t + 38 * t ^ 2)). { intros t. rewrite (cubic_derivative _ _ _ _ f1 t 0 Hf) by lia. cbn [coord fst snd P2]. ring. }
  assert (Hy : forall t, coord 2 1 (f1 t) = 3 * (10 - 20 * t)). { intros t. rewrite (cubic_derivative _ _ _ _ f1 t 1 Hf) by lia. cbn [coord fst snd P2]. ring. }
  assert (Hi : forall t, 0 < inner (P2 1 0) (f1 t)).
  { intros t. rewrite inner_2, Hx. cbn [coord fst snd P2]. pose proof (Rle_0_sqr (t - 1 / 2)) as Q. unfold Rsqr in Q. lra. }
  split; [intros t _; apply (norm2_nz (P2 1 0)); specialize (Hi t); lra|].
  assert (E : polygon_turning near_cusp = Ok (3 * PI / 2)).
  { unfold near_cusp. rewrite polygon4. f_equal.
    assert (T1 : turn (psub (P2 10 10) (P2 0 0)) (psub (P2 1 10) (P2 10 10)) = 3 * PI / 4).
    { rewrite !turn_P2. unfold Ratan2. destruct (Rlt_dec _ _); [lra|]. destruct (Rlt_dec _ _); [|lra]. destruct (Rle_dec _ _); [|lra].
      replace ((_ - _) / _) with (- (1)) by field. rewrite atan_opp, atan_1. lra. }
    assert (T2 : turn (psub (P2 1 10) (P2 10 10)) (psub (P2 11 0) (P2 1 10)) = 3 * PI / 4).
    { rewrite !turn_P2. unfold Ratan2. destruct (Rlt_dec _ _); [lra|]. destruct (Rlt_dec _ _); [|lra]. destruct (Rle_dec _ _); [|lra].
      replace ((_ - _) / _) with (- (1)) by field. rewrite atan_opp, atan_1. lra. }
    rewrite T1, T2. lra. }
  destruct (cubic_whole near_cusp eq_refl) as [E3 Eg]. rewrite E3, Eg, E. split; [reflexivity|]. split; [reflexivity|].
  assert (S : side (P2 1 0) (f1 1) - side (P2 1 0) (f1 0) = - (PI / 2)).
  { unfold side, cross2. rewrite !inner_2, !Hx, !Hy. cbn [coord fst snd P2].
    match goal with |- atan ?A - atan ?B = _ => replace A with (- (1)) by field; replace B with 1 by field end. rewrite atan_opp, atan_1. lra. }
  rewrite <- S. apply side_turning; [lra| |intros t _; apply Hi]. intros i Hi'. exact (cubic_cont _ _ _ _ f1 i Hf Hi').
Qed.
(** Two equal inner control points: the corner of the polygon is not seen. *)
Definition doubled : list (vec R 2) := [P2 0 0; P2 1 0; P2 1 0; P2 1 1].
Lemma doubled_turning : exists f1, (forall t, vderiv (bernstein_curve doubled) t (f1 t)) /\ (forall t, 0 <= t <= 1 -> 0 < norm2 (f1 t)) /\
  bz_turning_angle (mk_bezier doubled) 0 1 = Ok 0 /\ bz3_turning_angle (mk_bezier doubled) 0 1 = Ok 0 /\ turning f1 0 1 (PI / 2).
Proof.
  destruct (derivative_exists doubled ltac:(discriminate)) as [f1 Hf]. exists f1. split; [exact Hf|].
  assert (Hx : forall t, coord 2 0 (f1 t) = 3 * (1 - t) ^ 2). { intros t. rewrite (cubic_derivative _ _ _ _ f1 t 0 Hf) by lia. cbn [coord fst snd P2]. ring. }
  assert (Hy : forall t, coord 2 1 (f1 t) = 3 * t ^ 2). { intros t. rewrite (cubic_derivative _ _ _ _ f1 t 1 Hf) by lia. cbn [coord fst snd P2]. ring. }
  assert (Hi : forall t, 0 < inner (P2 1 1) (f1 t)).
  { intros t. rewrite inner_2, Hx, Hy. cbn [coord fst snd P2]. pose proof (Rle_0_sqr (t - 1 / 2)) as Q. unfold Rsqr in Q. lra. }
  split; [intros t _; apply (norm2_nz (P2 1 1)); specialize (Hi t); lra|].
  assert (E : polygon_turning doubled = Ok 0).
  { unfold doubled. rewrite polygon4. f_equal. rewrite !turn_P2. unfold Ratan2. repeat (destruct (Rlt_dec _ _); [lra|]). lra. }
  destruct (cubic_whole doubled eq_refl) as [E3 Eg]. rewrite E3, Eg, E. split; [reflexivity|]. split; [reflexivity|].
  assert (S : side (P2 1 1) (f1 1) - side (P2 1 1) (f1 0) = PI / 2).
  { unfold side, cross2. rewrite !inner_2, !Hx, !Hy. cbn [coord fst snd P2].
    match goal with |- atan ?A - atan ?B = _ => replace A with 1 by field; replace B with (- (1)) by field end. rewrite atan_opp, atan_1. lra. }
  rewrite <- S. apply side_turning; [lra| |intros t _; apply Hi]. intros i Hi'. exact (cubic_cont _ _ _ _ f1 i Hf Hi').
Qed.
(** Degree 3 strictly inside: the wrong interval. *)
Definition bending : list (vec R 2) := [P2 0 0; P2 1 0; P2 2 1; P2 3 3].
Lemma bending_advancing : advancing (P2 1 0) bending.
Proof. intros i Hi. cbn [bending length] in Hi. destruct i as [|[|[|i]]]; [| | |lia]; rewrite inner_2; cbn; lra. Qed.
Lemma bending_turning : exists f1 theta, (forall t, vderiv (bernstein_curve bending) t (f1 t)) /\ (forall t, 0 <= t <= 1 -> 0 < norm2 (f1 t)) /\
  bz3_turning_angle (mk_bezier bending) (1 / 4) (1 / 2) = Ok theta /\ turning f1 (1 / 4) (5 / 8) theta /\ ~ turning f1 (1 / 4) (1 / 2) theta.
Proof.
  destruct (derivative_exists bending ltac:(discriminate)) as [f1 Hf].
  assert (Hx : forall t, coord 2 0 (f1 t) = 3). { intros t. rewrite (cubic_derivative _ _ _ _ f1 t 0 Hf) by lia. cbn [coord fst snd P2]. ring. }
  assert (Hy : forall t, coord 2 1 (f1 t) = 6 * t). { intros t. rewrite (cubic_derivative _ _ _ _ f1 t 1 Hf) by lia. cbn [coord fst snd P2]. ring. }
  assert (Hn : forall t, 0 <= t <= 1 -> 0 < norm2 (f1 t)). { intros t _. apply (norm2_nz (P2 1 0)). rewrite inner_2, Hx, Hy. cbn [coord fst snd P2]. lra. }
  destruct (bezier_turning (P2 1 0) (mk_bezier bending) f1 (1 / 4) (5 / 8)) as (theta & E & Ht); [cbn; lia|exact bending_advancing|exact Hf|lra|lra|].
  exists f1, theta. split; [exact Hf|]. split; [exact Hn|]. rewrite cubic_interior by (reflexivity || lra). replace (1 / 4 + (1 - 1 / 4) * (1 / 2)) with (5 / 8) by field.
  split; [exact E|]. split; [exact Ht|]. intros K.
  assert (L : (2 <= length bending)%nat) by (cbn; lia).
  destruct (bezier_advancing (P2 1 0) bending f1 (1 / 4) (5 / 8) bending_advancing L Hf) as [T1 _]; [lra|lra|].
  destruct (bezier_advancing (P2 1 0) bending f1 (1 / 4) (1 / 2) bending_advancing L Hf) as [T2 _]; [lra|lra|].
  assert (Q1 := turning_unique f1 (1 / 4) (5 / 8) _ _ ltac:(lra) (fun t H => Hn t ltac:(lra)) Ht T1).
  assert (Q2 := turning_unique f1 (1 / 4) (1 / 2) _ _ ltac:(lra) (fun t H => Hn t ltac:(lra)) K T2).
  assert (S : side (P2 1 0) (f1 (5 / 8)) = side (P2 1 0) (f1 (1 / 2))) by lra.
  unfold side, cross2 in S. rewrite !inner_2, !Hx, !Hy in S. cbn [coord fst snd P2] in S.
  match type of S with atan ?A = atan ?B => assert (B < A) as L' by lra; pose proof (atan_increasing _ _ L'); lra end.
Qed.
