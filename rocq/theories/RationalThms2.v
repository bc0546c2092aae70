(** Rational curves: histories of setters, weight invariances, conversions, splitting, knot operations. *)
From Coq Require Import Reals Lra Lia ZArith List Bool Permutation.
From Verif Require Import Monad MonadFacts LoopFacts Scalar ScalarFacts Spec SpecFacts Polar ModelCurve CurveFacts ModelBezier
  BezierFacts BezierMath BezierThms BSplineMath ModelBSpline BSplineFacts BSplineThms BSplineThms2 BSplineThms3
  BSplineInsert BSplineInsert2 BSplineInsert3 BSplineSplit BSplineConvert ModelRational RationalFacts RationalThms.
Import ListNotations.
Local Open Scope R_scope.

(** * Histories (C25) *)
(** What the control points and the weights should be after the calls. *)
Fixpoint rb_points_after {d} (ks : list (rb_call R d)) (pts : list (vec R d)) : list (vec R d) :=
  match ks with
  | [] => pts
  | RSetPoint i p :: ks => rb_points_after ks (replace_nth pts i p)
  | RSetWeight _ _ :: ks => rb_points_after ks pts
  end.
Fixpoint rb_weights_after {d} (ks : list (rb_call R d)) (ws : list R) : list R :=
  match ks with
  | [] => ws
  | RSetPoint _ _ :: ks => rb_weights_after ks ws
  | RSetWeight i w :: ks => rb_weights_after ks (replace_nth ws i w)
  end.
Definition rb_index {d} (k : rb_call R d) : nat := match k with RSetPoint i _ | RSetWeight i _ => i end.

Section Hist.
  Context {d : nat}.

  Lemma set_point_fresh (c : rbezier R d) i p : rb_fresh c -> (i < length (rb_pts c))%nat ->
    exists c', rb_set_control_point c (Z.of_nat i) p = Ok c' /\ rb_fresh c' /\
      rb_pts c' = replace_nth (rb_pts c) i p /\ rb_weights c' = rb_weights c /\ rb_periodic c' = rb_periodic c.
  Proof.
    intros Hf Hi. pose proof (rb_fresh_validate c Hf) as Hval. apply rb_fresh_iff in Hf. destruct Hf as [HL E].
    unfold rb_set_control_point, bz_set_control_point. rewrite Hval, E. cbn [bind bz_pts bz_periodic].
    assert (Hlen : length (hrows (rb_pts c) (rb_weights c)) = length (rb_pts c)) by (apply hrows_length; symmetry; exact HL).
    rewrite (set_ok (rb_pts c) i p Hi), (get_nth _ i p0) by (rewrite Hlen; exact Hi).
    rewrite (get_nth (rb_weights c) i 0) by (rewrite HL; exact Hi). cbn [bind].
    rewrite set_ok by (rewrite Hlen; exact Hi). cbn [bind]. eexists. split; [reflexivity|].
    cbn [rb_pts rb_weights rb_periodic]. split; [|auto]. apply rb_fresh_iff. cbn [rb_pts rb_weights rb_periodic rb_hom].
    split; [rewrite replace_length by exact Hi; exact HL|]. f_equal.
    rewrite hrows_nth by (try (symmetry; exact HL); exact Hi). unfold hrow at 1. rewrite vlast_vsnoc.
    fold (hrow p (nth i (rb_weights c) 0)). rewrite <- replace_hrows by (try (symmetry; exact HL); exact Hi).
    f_equal. apply replace_same. rewrite HL. exact Hi.
  Qed.
  Lemma set_weight_fresh (c : rbezier R d) i w : rb_fresh c -> (i < length (rb_pts c))%nat ->
    exists c', rb_set_weight c (Z.of_nat i) w = Ok c' /\ rb_fresh c' /\
      rb_pts c' = rb_pts c /\ rb_weights c' = replace_nth (rb_weights c) i w /\ rb_periodic c' = rb_periodic c.
  Proof.
    intros Hf Hi. pose proof (rb_fresh_validate c Hf) as Hval. apply rb_fresh_iff in Hf. destruct Hf as [HL E].
    unfold rb_set_weight, bz_set_control_point. rewrite Hval, E. cbn [bind bz_pts bz_periodic].
    assert (Hlen : length (hrows (rb_pts c) (rb_weights c)) = length (rb_pts c)) by (apply hrows_length; symmetry; exact HL).
    rewrite (set_ok (rb_weights c) i w) by (rewrite HL; exact Hi). rewrite (get_nth _ i p0) by (rewrite Hlen; exact Hi).
    rewrite (get_nth (rb_pts c) i p0) by exact Hi. cbn [bind].
    rewrite set_ok by (rewrite Hlen; exact Hi). cbn [bind]. eexists. split; [reflexivity|].
    cbn [rb_pts rb_weights rb_periodic]. split; [|auto]. apply rb_fresh_iff. cbn [rb_pts rb_weights rb_periodic rb_hom].
    split; [rewrite replace_length by (rewrite HL; exact Hi); exact HL|]. f_equal.
    fold (hrow (nth i (rb_pts c) p0) w). rewrite <- replace_hrows by (try (symmetry; exact HL); exact Hi).
    f_equal. apply replace_same. exact Hi.
  Qed.

  Lemma rbezier_history (c0 c : rbezier R d) (ks : list (rb_call R d)) : rb_initialize c0 = Ok c ->
    Forall (fun k => (rb_index k < length (rb_pts c0))%nat) ks ->
    exists c', rb_run ks c = Ok c' /\
      rb_pts c' = rb_points_after ks (rb_pts c0) /\ rb_weights c' = rb_weights_after ks (rb_weights c0) /\
      rb_initialize c' = Ok c' /\
      (forall c1, rb_pts c1 = rb_pts c' -> rb_weights c1 = rb_weights c' -> rb_periodic c1 = rb_periodic c0 -> rb_initialize c1 = Ok c').
  Proof.
    intros Hi HF. pose proof (rb_init_fresh c0 c Hi) as Hf. apply rb_init_inv in Hi. destruct Hi as [HL Ec].
    assert (E1 : rb_pts c = rb_pts c0) by now rewrite Ec. assert (E2 : rb_weights c = rb_weights c0) by now rewrite Ec.
    assert (E3 : rb_periodic c = rb_periodic c0) by now rewrite Ec. rewrite <- E1, <- E2, <- E3. rewrite <- E1 in HF.
    clear Ec E1 E2 E3 HL c0. revert c Hf HF. induction ks as [|k ks IH]; intros c Hf HF.
    - exists c. split; [reflexivity|]. split; [reflexivity|]. split; [reflexivity|]. split; [exact Hf|].
      intros c1 H1 H2 H3. apply rb_fresh_iff in Hf. destruct Hf as [HL Eh]. rewrite rb_init_ok by (rewrite H1, H2; exact HL).
      rewrite H1, H2, H3, <- Eh. now destruct c.
    - inversion HF as [|? ? Hk Hks]; subst. destruct k as [i p|i w]; cbn [rb_index] in Hk; cbn [rb_run rb_step rb_points_after rb_weights_after].
      + destruct (set_point_fresh c i p Hf Hk) as (c' & E & Hf' & P1 & P2 & P3). rewrite E. cbn [bind].
        rewrite <- P1, <- P2, <- P3. apply IH; [exact Hf'|]. rewrite P1, replace_length by exact Hk. exact Hks.
      + destruct (set_weight_fresh c i w Hf Hk) as (c' & E & Hf' & P1 & P2 & P3). rewrite E. cbn [bind].
        rewrite <- P1, <- P2, <- P3. apply IH; [exact Hf'|]. rewrite P1. exact Hks.
  Qed.

  (** NURBS *)
  Lemma nset_point_fresh (c : nurbs R d) i p : nb_fresh c -> (i < length (nb_pts c))%nat ->
    (length (nb_pts c) + 1 <= length (nb_knots c))%nat ->
    exists c', nb_set_control_point c (Z.of_nat i) p = Ok c' /\ nb_fresh c' /\
      nb_pts c' = replace_nth (nb_pts c) i p /\ nb_weights c' = nb_weights c /\ nb_knots c' = nb_knots c /\ nb_periodic c' = nb_periodic c.
  Proof.
    intros Hf Hi Hk. pose proof (nb_fresh_validate c Hf Hk) as Hval. apply nb_fresh_iff in Hf. destruct Hf as [HL E].
    unfold nb_set_control_point, bs_set_control_point. rewrite Hval, E. cbn [bind bs_pts bs_knots bs_periodic].
    assert (Hlen : length (hrows (nb_pts c) (nb_weights c)) = length (nb_pts c)) by (apply hrows_length; symmetry; exact HL).
    rewrite (set_ok (nb_pts c) i p Hi), (get_nth _ i p0) by (rewrite Hlen; exact Hi).
    rewrite (get_nth (nb_weights c) i 0) by (rewrite HL; exact Hi). cbn [bind].
    rewrite set_ok by (rewrite Hlen; exact Hi). cbn [bind]. eexists. split; [reflexivity|].
    cbn [nb_pts nb_weights nb_knots nb_periodic]. split; [|auto]. apply nb_fresh_iff. cbn [nb_pts nb_weights nb_knots nb_periodic nb_hom].
    split; [rewrite replace_length by exact Hi; exact HL|]. f_equal.
    rewrite hrows_nth by (try (symmetry; exact HL); exact Hi). unfold hrow at 1. rewrite vlast_vsnoc.
    fold (hrow p (nth i (nb_weights c) 0)). rewrite <- replace_hrows by (try (symmetry; exact HL); exact Hi).
    f_equal. apply replace_same. rewrite HL. exact Hi.
  Qed.
  Lemma nset_weight_fresh (c : nurbs R d) i w : nb_fresh c -> (i < length (nb_pts c))%nat ->
    (length (nb_pts c) + 1 <= length (nb_knots c))%nat ->
    exists c', nb_set_weight c (Z.of_nat i) w = Ok c' /\ nb_fresh c' /\
      nb_pts c' = nb_pts c /\ nb_weights c' = replace_nth (nb_weights c) i w /\ nb_knots c' = nb_knots c /\ nb_periodic c' = nb_periodic c.
  Proof.
    intros Hf Hi Hk. pose proof (nb_fresh_validate c Hf Hk) as Hval. apply nb_fresh_iff in Hf. destruct Hf as [HL E].
    unfold nb_set_weight, bs_set_control_point. rewrite Hval, E. cbn [bind bs_pts bs_knots bs_periodic].
    assert (Hlen : length (hrows (nb_pts c) (nb_weights c)) = length (nb_pts c)) by (apply hrows_length; symmetry; exact HL).
    rewrite (set_ok (nb_weights c) i w) by (rewrite HL; exact Hi). rewrite (get_nth _ i p0) by (rewrite Hlen; exact Hi).
    rewrite (get_nth (nb_pts c) i p0) by exact Hi. cbn [bind].
    rewrite set_ok by (rewrite Hlen; exact Hi). cbn [bind]. eexists. split; [reflexivity|].
    cbn [nb_pts nb_weights nb_knots nb_periodic]. split; [|auto]. apply nb_fresh_iff. cbn [nb_pts nb_weights nb_knots nb_periodic nb_hom].
    split; [rewrite replace_length by (rewrite HL; exact Hi); exact HL|]. f_equal.
    fold (hrow (nth i (nb_pts c) p0) w). rewrite <- replace_hrows by (try (symmetry; exact HL); exact Hi).
    f_equal. apply replace_same. exact Hi.
  Qed.
  Lemma nset_knot_fresh (c : nurbs R d) i u : nb_fresh c -> (i < length (nb_knots c))%nat ->
    exists c', nb_set_knot c (Z.of_nat i) u = Ok c' /\ nb_fresh c' /\
      nb_pts c' = nb_pts c /\ nb_weights c' = nb_weights c /\ nb_knots c' = replace_nth (nb_knots c) i u /\ nb_periodic c' = nb_periodic c.
  Proof.
    intros Hf Hi. apply nb_fresh_iff in Hf. destruct Hf as [HL E].
    unfold nb_set_knot, bs_set_knot. rewrite E. cbn [bs_pts bs_knots bs_periodic]. rewrite (set_ok _ i u Hi). cbn [bind].
    eexists. split; [reflexivity|]. cbn [nb_pts nb_weights nb_knots nb_periodic]. split; [|auto].
    apply nb_fresh_iff. split; [exact HL|reflexivity].
  Qed.

  Lemma nset_hom_fresh (h : bspline R (vec R (S d))) c : nb_set_homogeneous h = Ok c ->
    nb_fresh c /\ nb_hom c = h /\ nb_knots c = bs_knots h /\ nb_periodic c = bs_periodic h /\
    length (nb_pts c) = length (bs_pts h) /\ nb_weights c = map (vlast d) (bs_pts h).
  Proof.
    unfold nb_set_homogeneous. destruct (dehomogenize (bs_pts h)) as [pts| | |] eqn:E; try discriminate. cbn [bind].
    match goal with |- context [nb_validate ?x] => destruct (nb_validate x) as [[]| | |]; try discriminate end. cbn [bind].
    intros H. injection H as <-. apply dehom_rows in E. destruct E as (L & E & _).
    cbn [nb_pts nb_knots nb_weights nb_hom nb_periodic]. split; [|auto].
    apply nb_fresh_iff. cbn [nb_pts nb_knots nb_weights nb_hom nb_periodic]. split; [rewrite map_length; symmetry; exact L|].
    destruct h as [hp hk hper]. cbn [bs_pts bs_knots bs_periodic] in *. apply f_equal3; [symmetry; exact E|reflexivity|reflexivity].
  Qed.

  Lemma nb_step_fresh (c c' : nurbs R d) k : nb_fresh c -> nb_step c k = Ok c' -> nb_fresh c'.
  Proof.
    intros Hf. assert (Hv : nb_validate c = Ok tt -> (length (nb_pts c) + 1 <= length (nb_knots c))%nat).
    { unfold nb_validate, bs_validate, bs_degree, nb_base, zlen. cbn [bs_pts bs_knots].
      match goal with |- context [(?a <? 0)%Z] => destruct (Z.ltb_spec a 0) end; cbn [bind]; [discriminate|lia]. }
    destruct k as [i p|i w|i u|t m|t m tol]; cbn [nb_step].
    - intros H. assert (Hval : nb_validate c = Ok tt).
      { unfold nb_set_control_point in H. destruct (nb_validate c) as [[]| | |]; try discriminate. reflexivity. }
      assert (Hi : (i < length (nb_pts c))%nat).
      { unfold nb_set_control_point in H. rewrite Hval in H. cbn [bind] in H.
        destruct (set (nb_pts c) (Z.of_nat i) p) as [l| | |] eqn:Es; try discriminate. apply set_inv' in Es.
        destruct Es as (j & Ej & Hj & _). assert (i = j) by lia. subst j. exact Hj. }
      destruct (nset_point_fresh c i p Hf Hi (Hv Hval)) as (c1 & E & F & _). rewrite E in H. injection H as <-. exact F.
    - intros H. assert (Hval : nb_validate c = Ok tt).
      { unfold nb_set_weight in H. destruct (nb_validate c) as [[]| | |]; try discriminate. reflexivity. }
      assert (Hi : (i < length (nb_weights c))%nat).
      { unfold nb_set_weight in H. rewrite Hval in H. cbn [bind] in H.
        destruct (set (nb_weights c) (Z.of_nat i) w) as [l| | |] eqn:Es; try discriminate. apply set_inv' in Es.
        destruct Es as (j & Ej & Hj & _). assert (i = j) by lia. subst j. exact Hj. }
      assert (HL : length (nb_weights c) = length (nb_pts c)) by (apply nb_fresh_iff in Hf; tauto). rewrite HL in Hi.
      destruct (nset_weight_fresh c i w Hf Hi (Hv Hval)) as (c1 & E & F & _). rewrite E in H. injection H as <-. exact F.
    - intros H. assert (Hi : (i < length (nb_knots c))%nat).
      { unfold nb_set_knot in H. destruct (set (nb_knots c) (Z.of_nat i) u) as [l| | |] eqn:Es; try discriminate. apply set_inv' in Es.
        destruct Es as (j & Ej & Hj & _). assert (i = j) by lia. subst j. exact Hj. }
      destruct (nset_knot_fresh c i u Hf Hi) as (c1 & E & F & _). rewrite E in H. injection H as <-. exact F.
    - unfold nb_insert_knot. destruct (nb_validate c) as [[]| | |]; try discriminate. cbn [bind].
      destruct (bs_insert_knot (nb_hom c) t m) as [h| | |]; try discriminate. cbn [bind]. intros H. now apply nset_hom_fresh in H.
    - unfold nb_remove_knot. destruct (nb_validate c) as [[]| | |]; try discriminate. cbn [bind].
      destruct (bs_remove_knot (nb_hom c) t m tol) as [[h r]| | |]; try discriminate. cbn [bind].
      destruct (nb_set_homogeneous h) as [c1| | |] eqn:E; try discriminate. cbn [bind]. intros H. injection H as <-. now apply nset_hom_fresh in E.
  Qed.

  Lemma nurbs_history (c0 c c' : nurbs R d) (ks : list (nb_call R d)) : nb_initialize c0 = Ok c -> nb_run ks c = Ok c' ->
    nb_initialize c' = Ok c' /\
    (forall c1, nb_pts c1 = nb_pts c' -> nb_knots c1 = nb_knots c' -> nb_weights c1 = nb_weights c' ->
       nb_periodic c1 = nb_periodic c' -> nb_initialize c1 = Ok c').
  Proof.
    intros Hi Hr. pose proof (nb_init_fresh c0 c Hi) as Hf. clear Hi c0.
    assert (Hf' : nb_fresh c').
    { revert c Hf Hr. induction ks as [|k ks IH]; intros c Hf Hr; cbn [nb_run] in Hr.
      - injection Hr as <-. exact Hf.
      - destruct (nb_step c k) as [c1| | |] eqn:E; try discriminate. cbn [bind] in Hr. apply (IH c1); [|exact Hr]. eapply nb_step_fresh; eassumption. }
    split; [exact Hf'|]. intros c1 H1 H2 H3 H4. apply nb_fresh_iff in Hf'. destruct Hf' as [HL Eh].
    rewrite nb_init_ok by (rewrite H1, H3; exact HL). rewrite H1, H2, H3, H4, <- Eh. now destruct c'.
  Qed.

  Lemma nurbs_setters (c0 c : nurbs R d) : nb_initialize c0 = Ok c ->
    (length (nb_pts c0) + 1 <= length (nb_knots c0))%nat ->
    (forall i p, (i < length (nb_pts c0))%nat -> exists c', nb_step c (NSetPoint i p) = Ok c' /\
       nb_pts c' = replace_nth (nb_pts c) i p /\ nb_weights c' = nb_weights c /\ nb_knots c' = nb_knots c) /\
    (forall i w, (i < length (nb_pts c0))%nat -> exists c', nb_step c (NSetWeight i w) = Ok c' /\
       nb_pts c' = nb_pts c /\ nb_weights c' = replace_nth (nb_weights c) i w /\ nb_knots c' = nb_knots c) /\
    (forall i u, (i < length (nb_knots c0))%nat -> exists c', nb_step c (NSetKnot i u) = Ok c' /\
       nb_pts c' = nb_pts c /\ nb_weights c' = nb_weights c /\ nb_knots c' = replace_nth (nb_knots c) i u).
  Proof.
    intros Hi. pose proof (nb_init_fresh c0 c Hi) as Hf. apply nb_init_inv in Hi. destruct Hi as [HL Ec].
    assert (E1 : nb_pts c = nb_pts c0) by now rewrite Ec. assert (E2 : nb_knots c = nb_knots c0) by now rewrite Ec.
    rewrite <- E1, <- E2. intros Hk. cbn [nb_step]. split; [|split].
    - intros i p Hi. destruct (nset_point_fresh c i p Hf Hi Hk) as (c' & E & _ & P1 & P2 & P3 & _). exists c'. auto.
    - intros i w Hi. destruct (nset_weight_fresh c i w Hf Hi Hk) as (c' & E & _ & P1 & P2 & P3 & _). exists c'. auto.
    - intros i u Hi. destruct (nset_knot_fresh c i u Hf Hi) as (c' & E & _ & P1 & P2 & P3 & _). exists c'. auto.
  Qed.
End Hist.

(** * Bulk setters (C26) *)
Lemma bulk_setters_no_effect d (c : rbezier R d) pts ws t : rb_fresh c ->
  length pts = length (rb_pts c) -> length ws = length (rb_pts c) ->
  rb_evaluate (rb_set_weights (rb_set_control_points c pts) ws) t = rb_evaluate c t.
Proof.
  intros Hf H1 H2. rewrite (rb_fresh_eval c t Hf). apply rb_fresh_iff in Hf. destruct Hf as [HL E].
  unfold rb_evaluate, rb_validate. cbn [rb_set_weights rb_set_control_points rb_hom rb_pts rb_weights rb_periodic].
  rewrite E. cbn [bz_pts bz_periodic]. unfold zlen. rewrite hrows_length by (symmetry; exact HL). rewrite H1, H2, !Z.eqb_refl. cbn [negb orb].
  rewrite eqb_reflx. reflexivity.
Qed.

(** * Weight invariances (C27) *)
Section Weights.
  Context {d : nat}.
  Lemma hrows_scale (pts : list (vec R d)) ws k : hrows pts (map (Rmult k) ws) = map (pmul k) (hrows pts ws).
  Proof.
    unfold hrows. revert ws; induction pts as [|p pts IH]; intros [|w ws]; try reflexivity.
    cbn [map combine]. rewrite IH. f_equal. cbn [fst snd]. apply hvec_ext.
    - rewrite (lm_mul _ (vhead_lin d)), !vhead_vsnoc. apply vec_ext. intros i Hi. rewrite !coord_mul by assumption. simpl smul. ring.
    - rewrite (lm_mul _ (vlast_lin d)), !vlast_vsnoc. reflexivity.
  Qed.
  Lemma hrows_const (pts : list (vec R d)) w : hrows pts (repeat w (length pts)) = map (fun p => vsnoc d (pmul w p) w) pts.
  Proof. unfold hrows. induction pts as [|p pts IH]; [reflexivity|]. cbn [length repeat combine map fst snd]. now rewrite IH. Qed.

  Lemma aff_scale k : forall x (a b : vec R (S d)), pmul k (padd (pmul (1 - x) a) (pmul x b)) = padd (pmul (1 - x) (pmul k a)) (pmul x (pmul k b)).
  Proof. intros x a b. apply vec_ext. intros i Hi. rewrite !coord_mul, !coord_add, !coord_mul by assumption. simpl smul. simpl sadd. ring. Qed.
  Lemma aff_snoc w : forall x (a b : vec R d),
    vsnoc d (pmul w (padd (pmul (1 - x) a) (pmul x b))) w = padd (pmul (1 - x) (vsnoc d (pmul w a) w)) (pmul x (vsnoc d (pmul w b) w)).
  Proof.
    intros x a b. apply hvec_ext.
    - rewrite (lm_add _ (vhead_lin d)), !(lm_mul _ (vhead_lin d)), !vhead_vsnoc.
      apply vec_ext. intros i Hi. rewrite !coord_mul, !coord_add, !coord_mul by assumption. simpl smul. simpl sadd. ring.
    - rewrite (lm_add _ (vlast_lin d)), !(lm_mul _ (vlast_lin d)), !vlast_vsnoc. simpl. ring.
  Qed.

  (** Affine maps on possibly periodic Bezier curves. *)
  Lemma bezier_affine_per d' d'' (f : vec R d' -> vec R d'') (pts : list (vec R d')) per t :
    (forall x a b, f (padd (pmul (1 - x) a) (pmul x b)) = padd (pmul (1 - x) (f a)) (pmul x (f b))) ->
    pts <> [] ->
    exists q, bz_evaluate {| bz_pts := pts; bz_periodic := per |} t = Ok q /\
      bz_evaluate {| bz_pts := map f pts; bz_periodic := per |} t = Ok (f q).
  Proof.
    intros Hf Hne. destruct per; [|exact (bezier_affine d' d'' f pts t Hf Hne)].
    destruct (bezier_periodic d' pts t) as (u & k & Hu & Hr & E & _).
    destruct (bezier_periodic d'' (map f pts) t) as (u' & k' & Hu' & Hr' & E' & _).
    assert (k = k'). { assert (IZR k - IZR k' < 1 /\ IZR k' - IZR k < 1) as [A B] by lra. rewrite <- minus_IZR in A, B.
      apply lt_IZR in A. apply lt_IZR in B. lia. }
    assert (Euu : u = u') by (rewrite Hu, Hu', H; reflexivity). rewrite <- Euu in E'.
    destruct (bezier_affine d' d'' f pts u Hf Hne) as (q & E1 & E2). exists q.
    split; [exact (eq_trans E E1)|exact (eq_trans E' E2)].
  Qed.

  Lemma rb_scale_weights (c0 c : rbezier R d) k t : k <> 0 -> rb_pts c0 <> [] -> rb_initialize c0 = Ok c ->
    exists c', rb_initialize (rb_set_weights c0 (map (Rmult k) (rb_weights c0))) = Ok c' /\ rb_evaluate c' t = rb_evaluate c t.
  Proof.
    intros Hk Hne Hi. pose proof (rb_init_fresh _ _ Hi) as Hf. apply rb_init_inv in Hi. destruct Hi as [HL Ec].
    eexists. split; [apply rb_init_ok; cbn [rb_set_weights rb_weights rb_pts]; rewrite map_length; exact HL|].
    match goal with |- rb_evaluate ?x t = _ => set (c' := x) end.
    assert (Hf' : rb_fresh c') by (apply rb_fresh_iff; cbn; split; [rewrite map_length; exact HL|reflexivity]).
    rewrite (rb_fresh_eval c t Hf), (rb_fresh_eval c' t Hf'). subst c' c. cbn [rb_hom rb_set_weights rb_pts rb_weights rb_periodic].
    rewrite hrows_scale.
    destruct (bezier_affine_per _ _ (pmul k) (hrows (rb_pts c0) (rb_weights c0)) (rb_periodic c0) t (aff_scale k)) as (q & E1 & E2).
    { intros E. pose proof (hrows_length (rb_pts c0) (rb_weights c0) (eq_sym HL)) as L. rewrite E in L. destruct (rb_pts c0); [congruence|discriminate]. }
    rewrite E1, E2. cbn [bind]. now apply h_point_scale.
  Qed.

  Lemma h_point_snoc w (p : vec R d) : w <> 0 -> h_point (vsnoc d (pmul w p) w) = Ok p.
  Proof. intros H. rewrite h_point_ok by (rewrite vlast_vsnoc; exact H). rewrite vlast_vsnoc, vhead_vsnoc, pmul_inv_r by exact H. reflexivity. Qed.

  Lemma rb_equal_weights (c : rbezier R d) w t : w <> 0 -> rb_pts c <> [] -> rb_fresh c ->
    rb_weights c = repeat w (length (rb_pts c)) ->
    rb_evaluate c t = bz_evaluate {| bz_pts := rb_pts c; bz_periodic := rb_periodic c |} t.
  Proof.
    intros Hw Hne Hf Hws. rewrite (rb_fresh_eval c t Hf). apply rb_fresh_iff in Hf. destruct Hf as [HL E].
    rewrite E, Hws, hrows_const.
    destruct (bezier_affine_per _ _ (fun p => vsnoc d (pmul w p) w) (rb_pts c) (rb_periodic c) t (aff_snoc w) Hne) as (q & E1 & E2).
    rewrite E1, E2. cbn [bind]. now apply h_point_snoc.
  Qed.

  Lemma nb_scale_weights (c0 c : nurbs R d) k t : k <> 0 -> valid_bspline (nb_pts c0) (nb_knots c0) -> nb_initialize c0 = Ok c ->
    exists c', nb_initialize (nb_set_weights c0 (map (Rmult k) (nb_weights c0))) = Ok c' /\ nb_evaluate c' t = nb_evaluate c t.
  Proof.
    intros Hk Hv Hi. pose proof (nb_init_fresh _ _ Hi) as Hf. apply nb_init_inv in Hi. destruct Hi as [HL Ec].
    eexists. split; [apply nb_init_ok; cbn [nb_set_weights nb_weights nb_pts]; rewrite map_length; exact HL|].
    match goal with |- nb_evaluate ?x t = _ => set (c' := x) end.
    assert (Hf' : nb_fresh c') by (apply nb_fresh_iff; cbn; split; [rewrite map_length; exact HL|reflexivity]).
    rewrite (nb_fresh_eval c t Hf), (nb_fresh_eval c' t Hf') by (subst c' c; exact (vb_len _ _ Hv)).
    subst c' c. cbn [nb_hom nb_set_weights nb_pts nb_knots nb_weights nb_periodic].
    rewrite hrows_scale.
    pose proof (hrows_length (nb_pts c0) (nb_weights c0) (eq_sym HL)) as L.
    destruct (valid_len (hrows (nb_pts c0) (nb_weights c0)) (nb_pts c0) (nb_knots c0) L) as (V1 & _).
    destruct (bspline_affine _ _ (pmul k) {| bs_pts := hrows (nb_pts c0) (nb_weights c0); bs_knots := nb_knots c0; bs_periodic := nb_periodic c0 |} t (aff_scale k))
      as (q & E1 & E2); [now apply V1|]. cbn [bs_pts bs_knots bs_periodic] in E2.
    rewrite E1, E2. cbn [bind]. now apply h_point_scale.
  Qed.

  Lemma nb_equal_weights (c : nurbs R d) w t : w <> 0 -> valid_bspline (nb_pts c) (nb_knots c) -> nb_fresh c ->
    nb_weights c = repeat w (length (nb_pts c)) -> nb_evaluate c t = bs_evaluate (nb_base c) t.
  Proof.
    intros Hw Hv Hf Hws. rewrite (nb_fresh_eval c t Hf) by exact (vb_len _ _ Hv). apply nb_fresh_iff in Hf. destruct Hf as [HL E].
    rewrite E, Hws, hrows_const.
    destruct (bspline_affine _ _ (fun p => vsnoc d (pmul w p) w) (nb_base c) t (aff_snoc w) Hv) as (q & E1 & E2).
    cbn [nb_base bs_pts bs_knots bs_periodic] in E2. rewrite E1, E2. cbn [bind]. now apply h_point_snoc.
  Qed.
End Weights.
