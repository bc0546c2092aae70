(** get_turning_angle of B-splines and rational curves. *)
From Coq Require Import Reals Lra Lia ZArith List Psatz Permutation.
From Verif Require Import Monad MonadFacts LoopFacts Scalar ScalarFacts Spec SpecFacts SpecGeom SpecAnalysis SpecTurning Polar BezierMath BezierFacts BezierThms BezierThms2 ModelCurve ModelBezier ModelBSpline ModelRational
  ModelPatch ModelPrimitive TrigFacts EllipseThms AnalysisThms AnalysisThms2 BSplineConvert ModelTurning TurningFacts TurningThms TurningThms2 TurningThms3.
Import ListNotations.
Local Open Scope R_scope.

Lemma turning_affine (f1 g1 : R -> vec R 2) a h l p q th : 0 < h -> 0 < l -> p <= q -> (forall u, p <= u <= q -> f1 (a + u * h) = pmul l (g1 u)) ->
  turning g1 p q th -> turning f1 (a + p * h) (a + q * h) th.
Proof.
  intros Hh Hl Hpq Hf (phi & Cp & Hp & Ep). exists (fun t => phi ((t - a) / h)). split; [|split].
  - apply (continuity_comp (fun t => (t - a) / h) phi); [|exact Cp]. unfold Rdiv. apply continuity_mult; [|apply continuity_const; intros x y; reflexivity].
    apply continuity_minus; [apply derivable_continuous, derivable_id|apply continuity_const; intros x y; reflexivity].
  - intros t Ht. set (u := (t - a) / h). assert (Eu : t = a + u * h) by (unfold u; field; lra).
    assert (Hu : p <= u <= q). { split; apply (Rmult_le_reg_r h); try lra. }
    rewrite Eu at 1. rewrite (Hf u Hu). apply heading_scale; [lra|]. now apply Hp.
  - rewrite Ep. f_equal; f_equal; field; lra.
Qed.

Lemma deriv_within_unique (a b : R) (D : R -> Prop) f t l l' : a < b -> a <= t <= b -> (forall x, a <= x <= b -> D x) -> deriv_within D f t l -> deriv_within D f t l' -> l = l'.
Proof.
  intros Hab Ht HD H1 H2. destruct (Req_dec l l') as [E|E]; [exact E|exfalso]. assert (He : 0 < Rabs (l - l') / 2) by (pose proof (Rabs_pos_lt (l - l') ltac:(lra)); lra).
  destruct (H1 _ He) as (d1 & P1 & Q1). destruct (H2 _ He) as (d2 & P2' & Q2). set (m := Rmin (Rmin d1 d2) (b - a) / 2).
  assert (Hm : 0 < m /\ m < d1 /\ m < d2 /\ m < b - a).
  { unfold m. assert (0 < Rmin (Rmin d1 d2) (b - a)) by (repeat apply Rmin_pos; lra). pose proof (Rmin_l (Rmin d1 d2) (b - a)). pose proof (Rmin_r (Rmin d1 d2) (b - a)). pose proof (Rmin_l d1 d2). pose proof (Rmin_r d1 d2). lra. }
  assert (Hh : exists h, h <> 0 /\ Rabs h <= m /\ a <= t + h <= b).
  { destruct (Rle_dec (t + m) b) as [L|L]; [exists m|exists (- m)].
    - rewrite Rabs_right by lra. repeat split; lra.
    - rewrite Rabs_Ropp, Rabs_right by lra. assert (m < (b - a) / 2 + 0 \/ m = (b - a) / 2 \/ m < b - a) by lra.
      assert (m <= (b - a) / 2). { unfold m. pose proof (Rmin_r (Rmin d1 d2) (b - a)). lra. } repeat split; lra. }
  destruct Hh as (h & Hz & Hr & Hd). specialize (Q1 h Hz ltac:(lra) (HD _ Hd)). specialize (Q2 h Hz ltac:(lra) (HD _ Hd)).
  set (q := (f (t + h) - f t) / h) in *. unfold Rabs in *. destruct (Rcase_abs (q - l)), (Rcase_abs (q - l')), (Rcase_abs (l - l')); lra.
Qed.
Lemma piece_derivative (f g f1 g1 : R -> vec R 2) lo hi a h : 0 < h -> lo <= a -> a + h <= hi ->
  (forall t, lo <= t <= hi -> vderiv_within (fun x => lo <= x <= hi) f t (f1 t)) -> (forall u, vderiv g u (g1 u)) ->
  (forall u, 0 <= u <= 1 -> f (a + u * h) = g u) -> forall u, 0 <= u <= 1 -> f1 (a + u * h) = pmul (/ h) (g1 u).
Proof.
  intros Hh Hlo Hhi Df Dg Hfg u Hu. apply vec_ext; intros i Hi. rewrite coord_mul by exact Hi. cbn [smul R_ops]. set (t := a + u * h).
  assert (Ht : a <= t <= a + h) by (unfold t; nra).
  apply (deriv_within_unique a (a + h) (fun x => a <= x <= a + h) (fun x => coord 2 i (f x)) t); [lra|lra|auto| |].
  - intros e He. destruct (Df t ltac:(lra) i Hi e He) as (dl & P & Q). exists dl. split; [exact P|]. intros k K1 K2 K3. apply Q; [exact K1|exact K2|lra].
  - assert (Ex : forall x, a <= x <= a + h -> coord 2 i (g ((x - a) / h)) = coord 2 i (f x)).
    { intros x Hx. rewrite <- Hfg; [f_equal; f_equal; field; lra|]. split; [apply Rmult_le_pos; [lra|left; apply Rinv_0_lt_compat; lra]|]. apply (Rmult_le_reg_r h); [lra|]. unfold Rdiv. rewrite Rmult_assoc, Rinv_l by lra. lra. }
    apply (deriv_within_ext (fun x => a <= x <= a + h) (fun x => coord 2 i (g ((x - a) / h)))); [now apply Ex|exact Ex|].
    apply deriv_within_of_deriv. replace (/ h * coord 2 i (g1 u)) with (coord 2 i (g1 u) * / h) by ring.
    apply (derivable_pt_lim_comp (fun x => (x - a) / h) (fun v => coord 2 i (g v)) t (/ h)).
    + replace (/ h) with ((1 - 0) * / h + (t - a) * 0) at 1 by ring. apply (derivable_pt_lim_mult (fun x => x - a) (fun _ => / h)); [|apply derivable_pt_lim_const].
        apply (derivable_pt_lim_minus id (fun _ => a)); [apply derivable_pt_lim_id|apply derivable_pt_lim_const].
    + replace ((t - a) / h) with u by (unfold t; field; lra). apply Dg. exact Hi.
Qed.

Lemma pieces_ok (fn : bezier (vec R 2) -> R -> R -> res R) segs bounds (f1 : R -> vec R 2) t0 t1 t1' :
  length bounds = S (length segs) -> (forall j, (j < length segs)%nat -> nth j bounds 0 < nth (j + 1) bounds 0) ->
  nth 0 bounds 0 <= t0 <= t1 -> t1 <= t1' <= nth (length segs) bounds 0 -> (forall j, (j < length segs)%nat -> t1 < nth j bounds 0 -> t1' <= nth j bounds 0) ->
  (forall j, (j < length segs)%nat -> let b := nth j bounds 0 in let h := nth (j + 1) bounds 0 - b in exists seg g1, nth_error segs j = Some seg /\
     (forall u, 0 <= u <= 1 -> f1 (b + u * h) = pmul (/ h) (g1 u)) /\ (forall u, 0 <= u <= 1 -> 0 < norm2 (g1 u)) /\
     (t0 <= b + h -> b <= t1 -> let nl := Rmax ((t0 - b) / h) 0 in let nu := Rmin ((t1 - b) / h) 1 in exists th, fn seg nl nu = Ok th /\ turning g1 nl (Rmin ((t1' - b) / h) 1) th)) ->
  exists theta, pieces_turning fn segs bounds t0 t1 = Ok theta /\ turning f1 t0 t1' theta.
Proof.
  intros Hlb Hinc H0 H1 Hsk Hp. set (e := fun i : Z => Rmax t0 (Rmin t1' (nth (Z.to_nat i) bounds 0))).
  unfold pieces_turning. match goal with |- context [for_up 0 ?n ?B ?s] => destruct (for_up_inv (fun i th => turning f1 t0 (e i) th) 0 n B s) as (th & E & H) end.
  - unfold zlen. lia.
  - replace (e 0%Z) with t0; [apply turning_point|]. unfold e. cbn [Z.to_nat]. rewrite Rmin_right by lra. rewrite Rmax_left; lra.
  - intros i th Hi HI. unfold zlen in Hi. destruct (Z_of_nat_complete i) as [k ->]; [lia|]. rewrite (get_nth bounds 0) by lia. rewrite bind_Ok.
    replace (Z.of_nat k + 1)%Z with (Z.of_nat (k + 1)) in * by lia. rewrite (get_nth bounds 0) by lia. rewrite bind_Ok.
    destruct (Hp k) as (seg & g1 & Es & Hf & Hn & Hth); [lia|]. specialize (Hinc k ltac:(lia)). specialize (Hsk k ltac:(lia)).
    unfold e in HI |- *. rewrite !Nat2Z.id in *. set (b := nth k bounds 0) in *. set (b' := nth (k + 1) bounds 0) in *. cbv zeta in Hf, Hth. set (h := b' - b) in *. assert (Hh : 0 < h) by (unfold h; lra).
    cbn [slt R_ops]. destruct (Rltb_spec b' t0) as [L|L]; [|destruct (Rltb_spec t1 b) as [L'|L']]; cbn [orb].
    + exists th. split; [reflexivity|]. rewrite (Rmin_right t1' b), (Rmax_left t0 b) in HI by lra. rewrite (Rmin_right t1' b'), (Rmax_left t0 b') by lra. exact HI.
    + specialize (Hsk L'). exists th. split; [reflexivity|]. rewrite (Rmin_left t1' b) in HI by lra. rewrite (Rmin_left t1' b') by lra. exact HI.
    + rewrite !ddiv_R by (cbn [ssub R_ops]; fold h; lra). rewrite !bind_Ok. unfold get. destruct (Z.ltb_spec (Z.of_nat k) 0); [lia|]. rewrite Nat2Z.id, Es, bind_Ok.
      rewrite smax_R, smin_R. cbn [ssub s0 s1 R_ops]. fold h. destruct (Hth ltac:(unfold h; lra) ltac:(lra)) as (a & Ea & Ta). rewrite Ea, bind_Ok. eexists. split; [reflexivity|].
      cbn [sadd R_ops]. set (nl := Rmax ((t0 - b) / h) 0) in *. set (nu := Rmin ((t1' - b) / h) 1) in *.
      assert (Enl : b + nl * h = Rmax t0 (Rmin t1' b)).
      { rewrite (Rmin_right t1' b) by lra. unfold nl. destruct (Rle_dec b t0) as [Q|Q].
        - rewrite (Rmax_left t0 b) by lra. rewrite Rmax_left; [field; lra|]. apply Rmult_le_pos; [lra|left; now apply Rinv_0_lt_compat].
        - rewrite (Rmax_right t0 b) by lra. rewrite Rmax_right; [ring|]. apply (Rmult_le_reg_r h); [lra|]. unfold Rdiv. rewrite Rmult_assoc, Rinv_l by lra. lra. }
      assert (Enu : b + nu * h = Rmax t0 (Rmin t1' b')).
      { rewrite (Rmax_right t0 (Rmin t1' b')) by (apply Rmin_glb; lra). unfold nu. destruct (Rle_dec t1' b') as [Q|Q].
        - rewrite (Rmin_left t1' b') by lra. rewrite Rmin_left; [field; lra|]. apply (Rmult_le_reg_r h); [lra|]. unfold Rdiv. rewrite Rmult_assoc, Rinv_l by lra. unfold h; lra.
        - rewrite (Rmin_right t1' b') by lra. rewrite Rmin_right; [unfold h; ring|]. apply (Rmult_le_reg_r h); [lra|]. unfold Rdiv. rewrite Rmult_assoc, Rinv_l by lra. unfold h; lra. }
      assert (Hle : Rmax t0 (Rmin t1' b) <= Rmax t0 (Rmin t1' b')).
      { apply Rmax_lub; [apply Rmax_l|]. apply (Rle_trans _ (Rmin t1' b')); [|apply Rmax_r]. rewrite Rmin_right by lra. apply Rmin_glb; lra. }
      assert (Hnl : nl <= nu). { apply (Rmult_le_reg_r h); lra. }
      assert (H0l : 0 <= nl) by apply Rmax_r. assert (Hu1 : nu <= 1) by apply Rmin_r.
      assert (Tp : turning f1 (b + nl * h) (b + nu * h) a).
      { apply (turning_affine f1 g1 b h (/ h)); [exact Hh|now apply Rinv_0_lt_compat|exact Hnl| |exact Ta]. intros u Hu. apply Hf. lra. }
      rewrite Enl, Enu in Tp. apply (turning_glue f1 t0 (Rmax t0 (Rmin t1' b))); [split; [apply Rmax_l|exact Hle]| |exact HI|exact Tp].
      rewrite <- Enl, Hf by lra. rewrite norm2_scale by (left; now apply Rinv_0_lt_compat). apply Rmult_lt_0_compat; [now apply Rinv_0_lt_compat|]. apply Hn. lra.
  - exists th. split; [exact E|]. replace (e (zlen segs)) with t1' in H; [exact H|]. unfold e, zlen. rewrite Nat2Z.id. rewrite Rmin_left, Rmax_right by lra. reflexivity.
Qed.

(** ** B-splines *)
Definition smooth_bspline (c : bspline R (vec R 2)) (f f1 : R -> vec R 2) : Prop :=
  let lo := lower_of (bs_pts c) (bs_knots c) in let hi := upper_of (bs_pts c) (bs_knots c) in
  (forall t, lo <= t <= hi -> bs_evaluate c t = Ok (f t)) /\ (forall t, lo <= t <= hi -> vderiv_within (fun x => lo <= x <= hi) f t (f1 t)) /\
  (forall t, lo <= t <= hi -> 0 < norm2 (f1 t)).
Definition clean_bspline (c : bspline R (vec R 2)) : Prop :=
  valid_bspline (bs_pts c) (bs_knots c) /\ knots_apart (/ IZR (10 ^ 16)) (bs_knots c) /\ bs_periodic c = false /\
  nth (bspline_degree (bs_pts c) (bs_knots c)) (bs_knots c) 0 < nth (bspline_degree (bs_pts c) (bs_knots c) + 1) (bs_knots c) 0 /\
  (forall u, lower_of (bs_pts c) (bs_knots c) < u < upper_of (bs_pts c) (bs_knots c) -> (count_occ Req_EM_T (bs_knots c) u <= bspline_degree (bs_pts c) (bs_knots c))%nat).

Lemma bounds_le (bounds : list R) N i j : length bounds = S N -> (forall j, (j < N)%nat -> nth j bounds 0 < nth (j + 1) bounds 0) -> (i <= j <= N)%nat -> nth i bounds 0 <= nth j bounds 0.
Proof.
  intros HL Hi [Hij Hj]. induction Hij as [|j Hij IH]; [lra|]. specialize (IH ltac:(lia)). specialize (Hi j ltac:(lia)). replace (j + 1)%nat with (S j) in Hi by lia. lra.
Qed.
Lemma bounds_lt (bounds : list R) N i j : length bounds = S N -> (forall j, (j < N)%nat -> nth j bounds 0 < nth (j + 1) bounds 0) -> (i <= N)%nat -> (j <= N)%nat -> nth i bounds 0 < nth j bounds 0 -> (i < j)%nat.
Proof. intros HL Hi H1 H2 H. destruct (Nat.lt_ge_cases i j) as [Q|Q]; [exact Q|]. pose proof (bounds_le bounds N j i HL Hi ltac:(lia)). lra. Qed.

Lemma bspline_pieces (c : bspline R (vec R 2)) f f1 : clean_bspline c -> smooth_bspline c f f1 ->
  exists segs bounds, bs_convert_to_Bezier c = Ok (segs, bounds) /\ length bounds = S (length segs) /\
    nth 0 bounds 0 = lower_of (bs_pts c) (bs_knots c) /\ nth (length segs) bounds 0 = upper_of (bs_pts c) (bs_knots c) /\
    (forall u, In u bounds <-> (In u (bs_knots c) /\ lower_of (bs_pts c) (bs_knots c) <= u <= upper_of (bs_pts c) (bs_knots c))) /\
    (forall j, (j < length segs)%nat -> nth j bounds 0 < nth (j + 1) bounds 0) /\
    forall j, (j < length segs)%nat -> let b := nth j bounds 0 in let h := nth (j + 1) bounds 0 - b in exists l g1, nth_error segs j = Some (mk_bezier l) /\
      length l = S (bspline_degree (bs_pts c) (bs_knots c)) /\ (forall u, 0 <= u <= 1 -> bernstein_curve l u = f (b + u * h)) /\ (forall u, vderiv (bernstein_curve l) u (g1 u)) /\
      (forall u, 0 <= u <= 1 -> f1 (b + u * h) = pmul (/ h) (g1 u)) /\ (forall u, 0 <= u <= 1 -> 0 < norm2 (g1 u)).
Proof.
  intros (Hv & Ha & Hper & Hs & Hm) (Ef & Df & Nf). destruct (bspline_convert 2 c Hv Ha Hs) as (segs & bounds & E & HL & B0 & BN & Hin & Hinc & Hp).
  exists segs, bounds. repeat (split; [assumption|]). intros j Hj. cbv zeta. destruct (Hp j Hj) as (l & El & Hl & Hx).
  assert (Hne : l <> []) by (destruct l; [discriminate|congruence]). destruct (derivative_exists l Hne) as [g1 Dg].
  set (b := nth j bounds 0) in *. set (b' := nth (j + 1) bounds 0) in *. specialize (Hinc j Hj) as Hbb. fold b b' in Hbb. set (h := b' - b).
  assert (Hlo : lower_of (bs_pts c) (bs_knots c) <= b) by (rewrite <- B0; apply (bounds_le bounds (length segs)); [assumption|assumption|lia]).
  assert (Hhi : b' <= upper_of (bs_pts c) (bs_knots c)) by (rewrite <- BN; apply (bounds_le bounds (length segs)); [assumption|assumption|lia]).
  assert (Hc : mk_bspline (bs_pts c) (bs_knots c) = c) by (destruct c; cbn in *; rewrite Hper; reflexivity). rewrite Hc in Hx.
  assert (Hval : forall u, 0 <= u <= 1 -> bernstein_curve l u = f (b + u * h)).
  { intros u Hu. specialize (Hx (b + u * h)). replace ((b + u * h - b) / (b' - b)) with u in Hx by (unfold h; field; lra). rewrite Ef, bezier_bernstein in Hx by (unfold h; assumption || nra).
    assert (Oi : forall a b : vec R 2, Ok a = Ok b -> a = b) by congruence. apply Oi, Hx. destruct (Req_dec u 1) as [->|Hu1].
    - right. split; [unfold h; ring|]. destruct (Nat.eq_dec (S j) (length segs)) as [Q|Q]; [left; exact Q|right]. apply Hm. replace (b + 1 * h) with b' by (unfold h; ring). split; [lra|].
      pose proof (Hinc (j + 1)%nat ltac:(lia)) as Q3. fold b' in Q3. pose proof (bounds_le bounds (length segs) (j + 1 + 1) (length segs) HL Hinc ltac:(lia)) as Q2. rewrite BN in Q2. lra.
    - left. unfold h. nra. }
  exists l, g1. split; [exact El|]. split; [exact Hl|]. split; [exact Hval|]. split; [exact Dg|].
  assert (K : forall u, 0 <= u <= 1 -> f1 (b + u * h) = pmul (/ h) (g1 u)).
  { apply (piece_derivative f (bernstein_curve l) f1 g1 (lower_of (bs_pts c) (bs_knots c)) (upper_of (bs_pts c) (bs_knots c)) b h); [unfold h; lra|lra|unfold h; lra|exact Df|exact Dg|]. intros u Hu. symmetry. now apply Hval. }
  split; [exact K|]. intros u Hu. assert (Hh : 0 < / h) by (apply Rinv_0_lt_compat; unfold h; lra).
  specialize (Nf (b + u * h)). rewrite K, norm2_scale in Nf by lra. assert (0 < / h * norm2 (g1 u)) by (apply Nf; unfold h; nra). pose proof (norm2_pos (g1 u)). nra.
Qed.
Lemma piece_range b h t0 t1 : 0 < h -> t0 <= t1 -> t0 <= b + h -> b <= t1 -> 0 <= Rmax ((t0 - b) / h) 0 <= Rmin ((t1 - b) / h) 1 /\ Rmin ((t1 - b) / h) 1 <= 1.
Proof.
  intros Hh Ht H0 H1. split; [|apply Rmin_r]. split; [apply Rmax_r|]. assert (Q : forall x y, x <= y * h -> x / h <= y). { intros x y Hxy. apply (Rmult_le_reg_r h); [lra|]. unfold Rdiv. rewrite Rmult_assoc, Rinv_l by lra. lra. }
  assert (Q' : 0 <= (t1 - b) / h) by (apply Rmult_le_pos; [lra|left; now apply Rinv_0_lt_compat]).
  apply Rmax_lub; apply Rmin_glb; try lra; apply Q; try lra. unfold Rdiv. rewrite Rmult_assoc, Rinv_l by lra. lra.
Qed.
(** Degree 2: the derivative need not do more than not to vanish. *)
Lemma bspline_quadratic (c : bspline R (vec R 2)) f f1 t0 t1 : clean_bspline c -> bspline_degree (bs_pts c) (bs_knots c) = 2%nat -> smooth_bspline c f f1 ->
  lower_of (bs_pts c) (bs_knots c) <= t0 <= t1 -> t1 <= upper_of (bs_pts c) (bs_knots c) -> exists theta, bs_turning_angle 2 c t0 t1 = Ok theta /\ turning f1 t0 t1 theta.
Proof.
  intros Hc Hd Hf H0 H1. destruct (bspline_pieces c f f1 Hc Hf) as (segs & bounds & E & HL & B0 & BN & _ & Hinc & Hp). unfold bs_turning_angle. cbn [Nat.eqb negb]. rewrite E, bind_Ok.
  apply pieces_ok; [exact HL|exact Hinc|lra|lra|intros; lra|]. intros j Hj. destruct (Hp j Hj) as (l & g1 & El & Hl & _ & Dg & Hfg & Ng). cbv zeta in *. specialize (Hinc j Hj).
  exists (mk_bezier l), g1. split; [exact El|]. split; [exact Hfg|]. split; [exact Ng|]. intros Q0 Q1. apply quadratic_turning; [congruence|exact Dg| |].
  - apply piece_range; lra.
  - intros t Ht. apply Ng. match type of Ht with Rmax (?A / ?h) 0 <= _ <= Rmin (?B / ?h) 1 => destruct (piece_range (nth j bounds 0) h t0 t1) as [? ?]; lra end.
Qed.
(** Degrees above 3 and dynamic ones. *)
Lemma bspline_generic (tdeg : Z) (c : bspline R (vec R 2)) f f1 t0 t1 : ~ (0 <= tdeg <= 3)%Z -> clean_bspline c -> (1 <= bspline_degree (bs_pts c) (bs_knots c))%nat -> smooth_bspline c f f1 ->
  (forall segs bounds seg, bs_convert_to_Bezier c = Ok (segs, bounds) -> In seg segs -> exists n, advancing n (bz_pts seg)) ->
  lower_of (bs_pts c) (bs_knots c) <= t0 <= t1 -> t1 <= upper_of (bs_pts c) (bs_knots c) -> exists theta, bs_turning_angle tdeg c t0 t1 = Ok theta /\ turning f1 t0 t1 theta.
Proof.
  intros Ht Hc Hd Hf Ha H0 H1. destruct (bspline_pieces c f f1 Hc Hf) as (segs & bounds & E & HL & B0 & BN & _ & Hinc & Hp). unfold bs_turning_angle. cbn [Nat.eqb negb]. rewrite E, bind_Ok.
  apply pieces_ok; [exact HL|exact Hinc|lra|lra|intros; lra|]. intros j Hj. destruct (Hp j Hj) as (l & g1 & El & Hl & _ & Dg & Hfg & Ng). cbv zeta in *. specialize (Hinc j Hj).
  exists (mk_bezier l), g1. split; [exact El|]. split; [exact Hfg|]. split; [exact Ng|]. intros Q0 Q1. destruct (Ha segs bounds (mk_bezier l) E (nth_error_In _ _ El)) as [n Hn].
  destruct (piece_range (nth j bounds 0) (nth (j + 1) bounds 0 - nth j bounds 0) t0 t1) as [P1 P2']; try lra.
  unfold bzt_turning_angle, bzt. destruct (Z.eqb_spec tdeg 0); [lia|]. destruct (Z.eqb_spec tdeg 1); [lia|]. destruct (Z.eqb_spec tdeg 2); [lia|]. destruct (Z.eqb_spec tdeg 3); [lia|].
  apply (bezier_turning n); [cbn [bz_pts mk_bezier]; lia|exact Hn|exact Dg|exact P1|exact P2'].
Qed.
(** Degree 3 between parameters that are not knots, not inside one piece. *)
Lemma bspline_cubic (c : bspline R (vec R 2)) f f1 t0 t1 : clean_bspline c -> bspline_degree (bs_pts c) (bs_knots c) = 3%nat -> smooth_bspline c f f1 ->
  (forall segs bounds seg, bs_convert_to_Bezier c = Ok (segs, bounds) -> In seg segs -> exists n, advancing n (bz_pts seg)) ->
  let lo := lower_of (bs_pts c) (bs_knots c) in let hi := upper_of (bs_pts c) (bs_knots c) in
  lo <= t0 < t1 -> t1 <= hi -> (In t0 (bs_knots c) -> t0 = lo) -> (In t1 (bs_knots c) -> t1 = hi) -> (exists u, In u (bs_knots c) /\ t0 <= u <= t1) ->
  exists theta, bs_turning_angle 3 c t0 t1 = Ok theta /\ turning f1 t0 t1 theta.
Proof.
  intros Hc Hd Hf Ha lo hi H0 H1 K0 K1 (w & Hw & Hw'). destruct (bspline_pieces c f f1 Hc Hf) as (segs & bounds & E & HL & B0 & BN & Hin & Hinc & Hp). unfold bs_turning_angle. cbn [Nat.eqb negb]. rewrite E, bind_Ok.
  apply pieces_ok; [exact HL|exact Hinc|fold lo in B0; lra|fold hi in BN; lra|intros; lra|]. intros j Hj. destruct (Hp j Hj) as (l & g1 & El & Hl & _ & Dg & Hfg & Ng). cbv zeta in *. pose proof (Hinc j Hj) as Hbb.
  exists (mk_bezier l), g1. split; [exact El|]. split; [exact Hfg|]. split; [exact Ng|]. intros Q0 Q1. destruct (Ha segs bounds (mk_bezier l) E (nth_error_In _ _ El)) as [n Hn].
  assert (Ib : forall i, (i <= length segs)%nat -> In (nth i bounds 0) bounds) by (intros i Hi; apply nth_In; lia).
  set (b := nth j bounds 0) in *. set (b' := nth (j + 1) bounds 0) in *. set (h := b' - b) in *. assert (Hh : 0 < h) by (unfold h; lra).
  destruct (piece_range b h t0 t1) as [P1 P2']; try lra.
  assert (Wb : lo <= b /\ b' <= hi). { split; [apply (proj1 (Hin b)), Ib; lia|apply (proj1 (Hin b')), Ib; lia]. }
  assert (N0 : t0 < b').
  { destruct (Req_dec t0 b') as [Q|Q]; [|unfold h in Q0; lra]. assert (t0 = lo) by (apply K0; rewrite Q; apply (proj1 (Hin b')), Ib; lia). lra. }
  assert (N1 : b < t1).
  { destruct (Req_dec t1 b) as [Q|Q]; [|lra]. assert (t1 = hi) by (apply K1; rewrite Q; apply (proj1 (Hin b)), Ib; lia). lra. }
  assert (No : t0 <= b \/ b' <= t1).
  { destruct (Rle_dec t0 b) as [Q|Q]; [now left|]. destruct (Rle_dec b' t1) as [Q'|Q']; [now right|exfalso]. assert (Iw : In w bounds) by (apply Hin; split; [exact Hw|fold lo hi; lra]).
    destruct (In_nth _ _ 0 Iw) as (m & Hm & Em). assert (j < m)%nat by (apply (bounds_lt bounds (length segs)); try assumption; try lia; rewrite Em; fold b; lra).
    assert (m < j + 1)%nat by (apply (bounds_lt bounds (length segs)); try assumption; try lia; rewrite Em; fold b'; lra). lia. }
  assert (Zl : t0 <= b -> Rmax ((t0 - b) / h) 0 = 0). { intros Q. apply Rmax_right. apply (Rmult_le_reg_r h); [lra|]. unfold Rdiv. rewrite Rmult_assoc, Rinv_l by lra. lra. }
  assert (Zu : b' <= t1 -> Rmin ((t1 - b) / h) 1 = 1). { intros Q. apply Rmin_right. apply (Rmult_le_reg_r h); [lra|]. unfold Rdiv. rewrite Rmult_assoc, Rinv_l by lra. unfold h; lra. }
  change (bzt_turning_angle 3 (mk_bezier l)) with (bz3_turning_angle (mk_bezier l)). rewrite cubic_ends.
  - apply (bezier_turning n); [cbn [bz_pts mk_bezier]; lia|exact Hn|exact Dg|exact P1|exact P2'].
  - congruence.
  - destruct No as [Q|Q]; [left|right].
    + split; [now apply Zl|]. split; [|exact P2']. apply Rmin_glb_lt; [apply Rdiv_lt_0_compat; lra|lra].
    + split; [|now apply Zu]. split; [apply P1|]. apply Rmax_lub_lt; [|lra]. apply (Rmult_lt_reg_r h); [lra|]. unfold Rdiv. rewrite Rmult_assoc, Rinv_l by lra. unfold h; lra.
Qed.
(** Degree 3 up to an interior knot: the next piece is counted as well. *)
Lemma bspline_cubic_knot_end (c : bspline R (vec R 2)) f f1 t0 t1 : clean_bspline c -> bspline_degree (bs_pts c) (bs_knots c) = 3%nat -> smooth_bspline c f f1 ->
  (forall segs bounds seg, bs_convert_to_Bezier c = Ok (segs, bounds) -> In seg segs -> exists n, advancing n (bz_pts seg)) ->
  let lo := lower_of (bs_pts c) (bs_knots c) in let hi := upper_of (bs_pts c) (bs_knots c) in
  lo <= t0 < t1 -> t1 < hi -> (In t0 (bs_knots c) -> t0 = lo) -> In t1 (bs_knots c) ->
  exists t2 theta, In t2 (bs_knots c) /\ t1 < t2 <= hi /\ (forall u, In u (bs_knots c) -> t1 < u -> t2 <= u \/ hi < u) /\ bs_turning_angle 3 c t0 t1 = Ok theta /\ turning f1 t0 t2 theta.
Proof.
  intros Hc Hd Hf Ha lo hi H0 H1 K0 Hk. destruct (bspline_pieces c f f1 Hc Hf) as (segs & bounds & E & HL & B0 & BN & Hin & Hinc & Hp). unfold bs_turning_angle. cbn [Nat.eqb negb]. rewrite E, bind_Ok.
  assert (Ib : forall i, (i <= length segs)%nat -> In (nth i bounds 0) bounds) by (intros i Hi; apply nth_In; lia).
  assert (It : In t1 bounds) by (apply Hin; split; [exact Hk|fold lo hi; lra]). destruct (In_nth _ _ 0 It) as (k & Hkl & Ek). rewrite HL in Hkl.
  assert (Hkn : (k < length segs)%nat) by (apply (bounds_lt bounds (length segs)); try assumption; try lia; rewrite Ek, BN; exact H1).
  set (t2 := nth (k + 1) bounds 0). assert (H2 : t1 < t2) by (unfold t2; rewrite <- Ek; now apply Hinc).
  assert (Hin2 : In t2 (bs_knots c) /\ lo <= t2 <= hi) by (apply Hin, Ib; lia).
  assert (Hnext : forall j, (j <= length segs)%nat -> t1 < nth j bounds 0 -> t2 <= nth j bounds 0).
  { intros j Hj Hjt. assert (k < j)%nat by (apply (bounds_lt bounds (length segs)); try assumption; try lia; rewrite Ek; exact Hjt). apply (bounds_le bounds (length segs)); try assumption; lia. }
  exists t2.
  assert (Hex : exists theta, pieces_turning (bzt_turning_angle 3) segs bounds t0 t1 = Ok theta /\ turning f1 t0 t2 theta).
  { apply pieces_ok; [exact HL|exact Hinc|fold lo in B0; lra|fold hi in BN; lra|intros j Hj; apply Hnext; lia|]. intros j Hj. destruct (Hp j Hj) as (l & g1 & El & Hl & _ & Dg & Hfg & Ng). cbv zeta in *. pose proof (Hinc j Hj) as Hbb.
    exists (mk_bezier l), g1. split; [exact El|]. split; [exact Hfg|]. split; [exact Ng|]. intros Q0 Q1. destruct (Ha segs bounds (mk_bezier l) E (nth_error_In _ _ El)) as [n Hn].
    change (bzt_turning_angle 3 (mk_bezier l)) with (bz3_turning_angle (mk_bezier l)).
    set (b := nth j bounds 0) in *. set (b' := nth (j + 1) bounds 0) in *. set (h := b' - b) in *. assert (Hh : 0 < h) by (unfold h; lra).
    assert (Wb : lo <= b /\ b' <= hi). { split; [apply (proj1 (Hin b)), Ib; lia|apply (proj1 (Hin b')), Ib; lia]. }
    assert (N0 : t0 < b').
    { destruct (Req_dec t0 b') as [Q|Q]; [|unfold h in Q0; lra]. assert (t0 = lo) by (apply K0; rewrite Q; apply (proj1 (Hin b')), Ib; lia). lra. }
    assert (Zu : forall t, b' <= t -> Rmin ((t - b) / h) 1 = 1). { intros t Q. apply Rmin_right. apply (Rmult_le_reg_r h); [lra|]. unfold Rdiv. rewrite Rmult_assoc, Rinv_l by lra. unfold h; lra. }
    assert (Hjk : (j <= k)%nat). { destruct (Nat.le_gt_cases j k) as [Q|Q]; [exact Q|]. assert (t2 <= b) by (apply (bounds_le bounds (length segs)); try assumption; lia). lra. }
    destruct (Nat.eq_dec j k) as [->|Hne].
    - assert (b = t1) by exact Ek. assert (b' = t2) by reflexivity. rewrite (Zu t2) by lra. rewrite (Rmax_right ((t0 - b) / h) 0).
      + replace (Rmin ((t1 - b) / h) 1) with 0.
        * assert (Ew : bz3_turning_angle (mk_bezier l) 0 0 = bz_turning_angle (mk_bezier l) 0 1).
          { rewrite (proj2 (cubic_whole l ltac:(congruence))). apply cubic_polygon; [|congruence]. apply cubic_subcurve_ub. congruence. }
          rewrite Ew. apply (bezier_turning n); [cbn [bz_pts mk_bezier]; lia|exact Hn|exact Dg|lra|lra].
        * replace ((t1 - b) / h) with 0; [rewrite Rmin_left; lra|]. replace (t1 - b) with 0 by lra. unfold Rdiv. ring.
      + apply (Rmult_le_reg_r h); [lra|]. unfold Rdiv. rewrite Rmult_assoc, Rinv_l by lra. lra.
    - assert (Hb't : b' <= t1). { rewrite <- Ek. apply (bounds_le bounds (length segs)); try assumption; lia. }
      rewrite (Zu t1), (Zu t2) by lra. destruct (piece_range b h t0 t1) as [P1 P2']; try lra. rewrite (Zu t1) in P1 by lra. rewrite cubic_ends.
      + apply (bezier_turning n); [cbn [bz_pts mk_bezier]; lia|exact Hn|exact Dg|exact P1|lra].
      + congruence.
      + right. split; [|reflexivity]. split; [apply P1|]. apply Rmax_lub_lt; [|lra]. apply (Rmult_lt_reg_r h); [lra|]. unfold Rdiv. rewrite Rmult_assoc, Rinv_l by lra. unfold h; lra. }
  destruct Hex as (theta & E' & T'). exists theta. split; [apply Hin2|]. split; [lra|]. split; [|split; [exact E'|exact T']].
  intros u Iu Hu. destruct (Rle_dec u hi) as [Q|Q]; [left|right; lra]. assert (Iub : In u bounds) by (apply Hin; split; [exact Iu|fold lo hi; lra]). destruct (In_nth _ _ 0 Iub) as (m & Hm & Em). rewrite <- Em in Hu |- *. apply Hnext; [lia|exact Hu].
Qed.
