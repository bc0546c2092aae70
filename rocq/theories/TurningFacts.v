(** Angles of plane vectors and the turning of plane curves. *)
From Coq Require Import Reals Lra Lia ZArith List Psatz.
From Verif Require Import Monad Scalar ScalarFacts Spec SpecFacts SpecGeom SpecAnalysis SpecTurning ModelPrimitive TrigFacts EllipseThms ModelTurning.
Import ListNotations.
Local Open Scope R_scope.

Lemma cont_ext (f g : R -> R) x : (forall t, f t = g t) -> continuity_pt f x -> continuity_pt g x.
Proof.
  intros E H eps He. destruct (H eps He) as (a & Ha & K). exists a. split; [exact Ha|]. intros y Hy. rewrite <- !E. now apply K.
Qed.
Lemma norm2_pos v : 0 <= norm2 v.
Proof. apply sqrt_pos. Qed.
Lemma norm2_sq v : norm2 v * norm2 v = coord 2 0 v * coord 2 0 v + coord 2 1 v * coord 2 1 v.
Proof. unfold norm2. rewrite sqrt_sqrt; [ring|nra]. Qed.
Lemma inner_2 (v w : vec R 2) : inner v w = coord 2 0 v * coord 2 0 w + coord 2 1 v * coord 2 1 w.
Proof. unfold inner, rsum. simpl. ring. Qed.
Lemma norm2_nz v w : inner v w <> 0 -> 0 < norm2 w.
Proof.
  intros H. destruct (norm2_pos w) as [|E]; [assumption|exfalso]. apply H. pose proof (norm2_sq w) as Q. rewrite <- E in Q.
  assert (coord 2 0 w = 0) by nra. assert (coord 2 1 w = 0) by nra. rewrite inner_2. rewrite H0, H1. ring.
Qed.

Lemma turn_oriented (v w : vec R 2) : oriented_angle v w (turn v w).
Proof.
  unfold oriented_angle, turn. cbn [satan2 R_trig smul ssub sadd R_ops]. split; [apply atan2_range|].
  set (x := coord 2 0 v). set (y := coord 2 1 v). set (x' := coord 2 0 w). set (y' := coord 2 1 w).
  destruct (atan2_polar (x * y' - y * x') (x * x' + y * y')) as [E1 E2].
  assert (E : sqrt ((x * x' + y * y') * (x * x' + y * y') + (x * y' - y * x') * (x * y' - y * x')) = norm2 v * norm2 w).
  { unfold norm2. fold x y x' y'. rewrite <- sqrt_mult by nra. f_equal. ring. }
  rewrite E in E1, E2. split; [rewrite E1, inner_2; reflexivity|rewrite E2; reflexivity].
Qed.

Lemma turn_heading (v w : vec R 2) a b : heading v a -> heading w b -> 0 < norm2 v -> 0 < norm2 w ->
  cos (turn v w) = cos (b - a) /\ sin (turn v w) = sin (b - a).
Proof.
  intros [V0 V1] [W0 W1] Hv Hw. destruct (turn_oriented v w) as (_ & E1 & E2). rewrite inner_2 in E1. unfold cross2 in E2.
  assert (Hp : norm2 v * norm2 w <> 0) by nra.
  split; apply (Rmult_eq_reg_l (norm2 v * norm2 w)); try assumption.
  - rewrite E1, V0, V1, W0, W1 at 1. rewrite cos_minus. ring.
  - rewrite E2, V0, V1, W0, W1 at 1. rewrite sin_minus. ring.
Qed.
Lemma turn_small (v w : vec R 2) a b : heading v a -> heading w b -> 0 < norm2 v -> 0 < norm2 w -> Rabs (b - a) < PI ->
  turn v w = b - a.
Proof.
  intros Hv Hw Nv Nw Hd. destruct (turn_heading v w a b Hv Hw Nv Nw) as [E1 E2]. apply angle_unique; try assumption.
  destruct (turn_oriented v w) as (Hr & _). apply Rabs_def2 in Hd. apply Rabs_def1; lra.
Qed.

Lemma turning_unique f1 a b th th' : a <= b -> (forall t, a <= t <= b -> 0 < norm2 (f1 t)) ->
  turning f1 a b th -> turning f1 a b th' -> th = th'.
Proof.
  intros Hab Hn (p & Cp & Hp & Ep) (q & Cq & Hq & Eq). set (g := fun t => p t - q t).
  assert (Cg : continuity g) by (apply (continuity_minus p q); assumption).
  assert (Hc : forall t, a <= t <= b -> cos (g t) = 1).
  { intros t Ht. destruct (Hp t Ht) as [P0 P1]. destruct (Hq t Ht) as [Q0 Q1]. specialize (Hn t Ht). unfold g.
    assert (E0 : cos (p t) = cos (q t)) by (apply (Rmult_eq_reg_l (norm2 (f1 t))); lra).
    assert (E1 : sin (p t) = sin (q t)) by (apply (Rmult_eq_reg_l (norm2 (f1 t))); lra).
    rewrite cos_minus, E0, E1. pose proof (cs1 (q t)). lra. }
  destruct (Req_dec (g a) (g b)) as [E|N]; [unfold g in E; lra|exfalso].
  assert (Hs : forall t, a <= t <= b -> sin (g t) = 0). { intros t Ht. pose proof (cs1 (g t)). rewrite (Hc t Ht) in H. nra. }
  set (e := Rmin 1 (Rabs (g b - g a)) / 2 * (if Rlt_dec (g a) (g b) then 1 else -1)).
  assert (He : 0 < Rabs e < 1 /\ (g a - (g a + e)) * (g b - (g a + e)) <= 0).
  { unfold e, Rmin, Rabs. destruct (Rlt_dec (g a) (g b)); repeat (destruct (Rcase_abs _) || destruct (Rle_dec _ _)); nra. }
  destruct He as [He Hsgn].
  destruct (IVT_cor (fun t => g t - (g a + e)) a b) as (z & Hz & Ez); [|exact Hab|exact Hsgn|].
  { apply continuity_minus; [exact Cg|apply continuity_const; intros x y; reflexivity]. }
  pose proof (Hc z Hz) as K. replace (g z) with (g a + e) in K by lra. rewrite cos_plus, (Hc a), (Hs a) in K by lra.
  assert (cos e < 1). { rewrite <- cos_abs, <- cos_0. pose proof PI2_1. apply cos_decreasing_1; lra. } lra.
Qed.

Lemma turning_glue f1 a b c th th' : a <= b <= c -> 0 < norm2 (f1 b) ->
  turning f1 a b th -> turning f1 b c th' -> turning f1 a c (th + th').
Proof.
  intros Habc Hn (p & Cp & Hp & Ep) (q & Cq & Hq & Eq). set (k := p b - q b).
  assert (Hk : cos k = 1 /\ sin k = 0).
  { destruct (Hp b) as [P0 P1]; [lra|]. destruct (Hq b) as [Q0 Q1]; [lra|]. unfold k.
    assert (E0 : cos (p b) = cos (q b)) by (apply (Rmult_eq_reg_l (norm2 (f1 b))); lra).
    assert (E1 : sin (p b) = sin (q b)) by (apply (Rmult_eq_reg_l (norm2 (f1 b))); lra).
    rewrite cos_minus, sin_minus, E0, E1. pose proof (cs1 (q b)). split; lra. }
  (* p up to b, q + k after *)
  exists (fun t => p ((t + b - Rabs (t - b)) / 2) + (q ((t + b + Rabs (t - b)) / 2) - q b)). split; [|split].
  - assert (Cm : forall s, continuity (fun t => (t + b + s * Rabs (t - b)) / 2)).
    { intros s. unfold Rdiv. apply continuity_mult; [|apply continuity_const; intros x y; reflexivity].
      apply continuity_plus; [apply continuity_plus; [apply derivable_continuous, derivable_id|apply continuity_const; intros x y; reflexivity]|].
      apply continuity_mult; [apply continuity_const; intros x y; reflexivity|].
      apply (continuity_comp (fun t => t - b) Rabs); [|exact Rcontinuity_abs].
      apply continuity_minus; [apply derivable_continuous, derivable_id|apply continuity_const; intros x y; reflexivity]. }
    apply continuity_plus; [|apply continuity_minus; [|apply continuity_const; intros x y; reflexivity]].
    + apply (continuity_comp (fun t => (t + b - Rabs (t - b)) / 2) p); [|exact Cp].
      intros x. pose proof (Cm (-1) x) as C. revert C. apply cont_ext. intros t. cbv beta. lra.
    + apply (continuity_comp (fun t => (t + b + Rabs (t - b)) / 2) q); [|exact Cq].
      intros x. pose proof (Cm 1 x) as C. revert C. apply cont_ext. intros t. cbv beta. lra.
  - intros t Ht. destruct (Rle_dec t b) as [L|L].
    + rewrite Rabs_left1 by lra. replace ((t + b - - (t - b)) / 2) with t by lra. replace ((t + b + - (t - b)) / 2) with b by lra.
      replace (p t + (q b - q b)) with (p t) by ring. apply Hp; lra.
    + rewrite Rabs_right by lra. replace ((t + b - (t - b)) / 2) with b by lra. replace ((t + b + (t - b)) / 2) with t by lra.
      replace (p b + (q t - q b)) with (q t + k) by (unfold k; ring). destruct (Hq t) as [Q0 Q1]; [lra|]. destruct Hk as [K0 K1].
      split; rewrite ?cos_plus, ?sin_plus, K0, K1; lra.
  - rewrite Ep, Eq. rewrite Rabs_right, Rabs_left1 by lra.
    replace ((c + b - (c - b)) / 2) with b by lra. replace ((c + b + (c - b)) / 2) with c by lra.
    replace ((a + b - - (a - b)) / 2) with a by lra. replace ((a + b + - (a - b)) / 2) with b by lra. ring.
Qed.
Lemma turning_point f1 a : turning f1 a a 0.
Proof.
  exists (fun _ => Ratan2 (coord 2 1 (f1 a)) (coord 2 0 (f1 a))). split; [apply continuity_const; intros x y; reflexivity|]. split; [|ring].
  intros t Ht. replace t with a by lra. destruct (atan2_polar (coord 2 1 (f1 a)) (coord 2 0 (f1 a))) as [E1 E2].
  unfold heading, norm2. replace (coord 2 0 (f1 a) ^ 2 + coord 2 1 (f1 a) ^ 2) with (coord 2 0 (f1 a) * coord 2 0 (f1 a) + coord 2 1 (f1 a) * coord 2 1 (f1 a)) by ring. lra.
Qed.
(** A sub interval, and a change of parameter with positive scaling. *)
Lemma heading_scale (v : vec R 2) l phi : 0 <= l -> heading v phi -> heading (pmul l v) phi.
Proof.
  intros Hl [H0 H1]. assert (E : norm2 (pmul l v) = l * norm2 v).
  { unfold norm2. rewrite !coord_mul by lia. cbn [smul R_ops]. transitivity (sqrt (l * l * (coord 2 0 v ^ 2 + coord 2 1 v ^ 2))); [f_equal; ring|].
    rewrite sqrt_mult_alt by nra. rewrite sqrt_square by lra. reflexivity. }
  split; rewrite coord_mul, E by lia; cbn [smul R_ops]; nra.
Qed.
Lemma norm2_scale (v : vec R 2) l : 0 <= l -> norm2 (pmul l v) = l * norm2 v.
Proof.
  intros Hl. unfold norm2. rewrite !coord_mul by lia. cbn [smul R_ops]. transitivity (sqrt (l * l * (coord 2 0 v ^ 2 + coord 2 1 v ^ 2))); [f_equal; ring|].
  rewrite sqrt_mult_alt by nra. rewrite sqrt_square by lra. reflexivity.
Qed.
Lemma turning_reparam (f1 g1 : R -> vec R 2) a h l th : 0 < h -> 0 < l -> (forall u, 0 <= u <= 1 -> f1 (a + u * h) = pmul l (g1 u)) ->
  turning g1 0 1 th -> turning f1 a (a + h) th.
Proof.
  intros Hh Hl Hf (p & Cp & Hp & Ep). exists (fun t => p ((t - a) / h)). split; [|split].
  - apply (continuity_comp (fun t => (t - a) / h) p); [|exact Cp]. unfold Rdiv. apply continuity_mult; [|apply continuity_const; intros x y; reflexivity].
    apply continuity_minus; [apply derivable_continuous, derivable_id|apply continuity_const; intros x y; reflexivity].
  - intros t Ht. set (u := (t - a) / h). assert (Eu : t = a + u * h) by (unfold u; field; lra).
    assert (Hu : 0 <= u <= 1).
    { split; [apply Rmult_le_pos; [lra|left; now apply Rinv_0_lt_compat]|]. apply (Rmult_le_reg_r h); [lra|]. lra. }
    rewrite Eu at 1. rewrite (Hf u Hu). apply heading_scale; [lra|]. now apply Hp.
  - rewrite Ep. f_equal; f_equal; field; lra.
Qed.

(** ** Vectors on one side of a line *)
Definition side (n v : vec R 2) : R := atan (cross2 n v / inner n v).
Lemma side_bound n v : - PI / 2 < side n v < PI / 2.
Proof. apply atan_bound. Qed.
Lemma atan2_heading (n : vec R 2) : heading n (Ratan2 (coord 2 1 n) (coord 2 0 n)).
Proof.
  destruct (atan2_polar (coord 2 1 n) (coord 2 0 n)) as [A0 A1].
  replace (sqrt _) with (norm2 n) in A0, A1 by (unfold norm2; f_equal; ring). split; lra.
Qed.
Lemma side_heading_of n v al : heading n al -> 0 < inner n v -> heading v (al + side n v).
Proof.
  intros [A0 A1] H. symmetry in A0, A1. assert (Hn : 0 < norm2 n). { apply (norm2_nz v). rewrite inner_2. rewrite inner_2 in H. lra. }
  destruct (atan_polar (inner n v) (cross2 n v)) as [S0 S1]; [lra|]. fold (side n v) in S0, S1. rewrite Rabs_right in S0, S1 by lra.
  assert (E : sqrt (inner n v * inner n v + cross2 n v * cross2 n v) = norm2 n * norm2 v).
  { unfold norm2. rewrite <- sqrt_mult by nra. f_equal. rewrite inner_2. unfold cross2. ring. }
  rewrite E in S0, S1. replace (inner n v * (cross2 n v / inner n v)) with (cross2 n v) in S1 by (field; lra).
  pose proof (norm2_sq n) as Q.
  assert (K : norm2 n * norm2 n <> 0) by nra.
  split; apply (Rmult_eq_reg_l (norm2 n * norm2 n)); try exact K.
  - rewrite cos_plus. transitivity ((norm2 n * cos al) * (norm2 n * norm2 v * cos (side n v)) - (norm2 n * sin al) * (norm2 n * norm2 v * sin (side n v))); [|ring].
    rewrite A0, A1, S0, S1, Q, inner_2. unfold cross2. ring.
  - rewrite sin_plus. transitivity ((norm2 n * sin al) * (norm2 n * norm2 v * cos (side n v)) + (norm2 n * cos al) * (norm2 n * norm2 v * sin (side n v))); [|ring].
    rewrite A0, A1, S0, S1, Q, inner_2. unfold cross2. ring.
Qed.
Lemma side_heading n v : 0 < inner n v -> heading v (Ratan2 (coord 2 1 n) (coord 2 0 n) + side n v).
Proof. apply side_heading_of, atan2_heading. Qed.
Lemma side_turn n v w : 0 < inner n v -> 0 < inner n w -> turn v w = side n w - side n v.
Proof.
  intros Hv Hw. rewrite (turn_small v w _ _ (side_heading n v Hv) (side_heading n w Hw)).
  - ring.
  - apply (norm2_nz n). lra.
  - apply (norm2_nz n). lra.
  - pose proof (side_bound n v). pose proof (side_bound n w). apply Rabs_def1; lra.
Qed.
Lemma side_turning n f1 a b : a <= b -> (forall i, (i < 2)%nat -> continuity (fun t => coord 2 i (f1 t))) ->
  (forall t, a <= t <= b -> 0 < inner n (f1 t)) -> turning f1 a b (side n (f1 b) - side n (f1 a)).
Proof.
  intros Hab Cf Hf. set (cl := fun t => (b + a + Rabs (t - a) - Rabs (t - b)) / 2).
  assert (Hcl : forall t, a <= cl t <= b).
  { intros t. unfold cl, Rabs. destruct (Rcase_abs _), (Rcase_abs _); lra. }
  assert (Hid : forall t, a <= t <= b -> cl t = t).
  { intros t Ht. unfold cl, Rabs. destruct (Rcase_abs _), (Rcase_abs _); lra. }
  assert (Ccl : continuity cl).
  { unfold cl, Rdiv. apply continuity_mult; [|apply continuity_const; intros x y; reflexivity].
    assert (Ca : forall c, continuity (fun t => Rabs (t - c))).
    { intros c. apply (continuity_comp (fun t => t - c) Rabs); [|exact Rcontinuity_abs].
      apply continuity_minus; [apply derivable_continuous, derivable_id|apply continuity_const; intros x y; reflexivity]. }
    apply continuity_minus; [apply continuity_plus; [apply continuity_const; intros x y; reflexivity|apply Ca]|apply Ca]. }
  exists (fun t => Ratan2 (coord 2 1 n) (coord 2 0 n) + side n (f1 (cl t))). split; [|split].
  - apply continuity_plus; [apply continuity_const; intros x y; reflexivity|].
    apply (continuity_comp (fun t => cross2 n (f1 (cl t)) / inner n (f1 (cl t))) atan).
    + assert (C : forall i, (i < 2)%nat -> continuity (fun t => coord 2 i (f1 (cl t)))) by (intros i Hi; apply (continuity_comp cl (fun t => coord 2 i (f1 t))); auto).
      assert (Ck : forall k i, (i < 2)%nat -> continuity (fun t => k * coord 2 i (f1 (cl t)))).
      { intros k i Hi. apply continuity_mult; [apply continuity_const; intros x y; reflexivity|now apply C]. }
      intros t. apply continuity_pt_div.
      * unfold cross2. apply continuity_pt_minus; apply Ck; lia.
      * apply cont_ext with (fun t => coord 2 0 n * coord 2 0 (f1 (cl t)) + coord 2 1 n * coord 2 1 (f1 (cl t))); [intros x; now rewrite inner_2|].
        apply continuity_pt_plus; apply Ck; lia.
      * pose proof (Hf _ (Hcl t)). lra.
    + intros x. apply derivable_continuous_pt. exists (/ (1 + x ^ 2)). apply derivable_pt_lim_atan.
  - intros t Ht. rewrite (Hid t Ht). apply side_heading. now apply Hf.
  - rewrite !Hid by lra. ring.
Qed.
