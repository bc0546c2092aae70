(** Theorems about rational Bezier curves and NURBS curves. *)
From Coq Require Import Reals Lra Lia ZArith List Bool Permutation.
From Verif Require Import Monad MonadFacts LoopFacts Scalar ScalarFacts Spec SpecFacts Polar ModelCurve CurveFacts ModelBezier
  BezierFacts BezierMath BezierThms BSplineMath ModelBSpline BSplineFacts BSplineThms BSplineThms2 BSplineThms3
  BSplineInsert BSplineInsert2 BSplineInsert3 BSplineSplit BSplineConvert ModelRational RationalFacts.
Import ListNotations.
Local Open Scope R_scope.

(** * Consistent objects *)
Section Consistent.
  Context {d : nat}.
  Implicit Types (c : rbezier R d) (cn : nurbs R d).

  Lemma rb_init_ok c : length (rb_weights c) = length (rb_pts c) ->
    rb_initialize c = Ok {| rb_pts := rb_pts c; rb_weights := rb_weights c;
       rb_hom := {| bz_pts := hrows (rb_pts c) (rb_weights c); bz_periodic := rb_periodic c |}; rb_periodic := rb_periodic c |}.
  Proof. intros H. unfold rb_initialize. rewrite homogenize_ok by (symmetry; exact H). reflexivity. Qed.
  Lemma rb_init_inv c c' : rb_initialize c = Ok c' ->
    length (rb_weights c) = length (rb_pts c) /\
    c' = {| rb_pts := rb_pts c; rb_weights := rb_weights c;
       rb_hom := {| bz_pts := hrows (rb_pts c) (rb_weights c); bz_periodic := rb_periodic c |}; rb_periodic := rb_periodic c |}.
  Proof.
    unfold rb_initialize. destruct (homogenize (rb_pts c) (rb_weights c)) as [l| | |] eqn:E; try discriminate.
    apply homogenize_inv in E. destruct E as [E ->]. cbn [bind]. intros H. injection H as <-. split; [symmetry; exact E|reflexivity].
  Qed.
  (** The object is what initialize makes of its own data. *)
  Definition rb_fresh c : Prop := rb_initialize c = Ok c.
  Lemma rb_fresh_iff c : rb_fresh c <-> length (rb_weights c) = length (rb_pts c) /\
    rb_hom c = {| bz_pts := hrows (rb_pts c) (rb_weights c); bz_periodic := rb_periodic c |}.
  Proof.
    split.
    - intros H. apply rb_init_inv in H. destruct H as [L E]. split; [exact L|]. rewrite E. reflexivity.
    - intros [L E]. unfold rb_fresh. rewrite rb_init_ok by exact L. rewrite <- E. now destruct c.
  Qed.
  Lemma rb_init_fresh c c' : rb_initialize c = Ok c' -> rb_fresh c'.
  Proof. intros H. apply rb_init_inv in H. destruct H as [L ->]. apply rb_fresh_iff. split; [exact L|reflexivity]. Qed.
  Lemma rb_fresh_validate c : rb_fresh c -> rb_validate c = Ok tt.
  Proof.
    intros H. apply rb_fresh_iff in H. destruct H as [L E]. unfold rb_validate. rewrite E. cbn [bz_pts bz_periodic].
    unfold zlen. rewrite hrows_length by (symmetry; exact L); rewrite L, !Z.eqb_refl. cbn [negb orb]. now rewrite eqb_reflx.
  Qed.
  Lemma rb_fresh_eval c t : rb_fresh c -> rb_evaluate c t = (do p <- bz_evaluate (rb_hom c) t; h_point p).
  Proof. intros H. unfold rb_evaluate. now rewrite rb_fresh_validate. Qed.

  Lemma nb_init_ok cn : length (nb_weights cn) = length (nb_pts cn) ->
    nb_initialize cn = Ok {| nb_pts := nb_pts cn; nb_knots := nb_knots cn; nb_weights := nb_weights cn;
       nb_hom := {| bs_pts := hrows (nb_pts cn) (nb_weights cn); bs_knots := nb_knots cn; bs_periodic := nb_periodic cn |};
       nb_periodic := nb_periodic cn |}.
  Proof. intros H. unfold nb_initialize. rewrite homogenize_ok by (symmetry; exact H). reflexivity. Qed.
  Lemma nb_init_inv cn (c' : nurbs R d) : nb_initialize cn = Ok c' ->
    length (nb_weights cn) = length (nb_pts cn) /\
    c' = {| nb_pts := nb_pts cn; nb_knots := nb_knots cn; nb_weights := nb_weights cn;
       nb_hom := {| bs_pts := hrows (nb_pts cn) (nb_weights cn); bs_knots := nb_knots cn; bs_periodic := nb_periodic cn |};
       nb_periodic := nb_periodic cn |}.
  Proof.
    unfold nb_initialize. destruct (homogenize (nb_pts cn) (nb_weights cn)) as [l| | |] eqn:E; try discriminate.
    apply homogenize_inv in E. destruct E as [E ->]. cbn [bind]. intros H. injection H as <-. split; [symmetry; exact E|reflexivity].
  Qed.
  Definition nb_fresh cn : Prop := nb_initialize cn = Ok cn.
  Lemma nb_fresh_iff cn : nb_fresh cn <-> length (nb_weights cn) = length (nb_pts cn) /\
    nb_hom cn = {| bs_pts := hrows (nb_pts cn) (nb_weights cn); bs_knots := nb_knots cn; bs_periodic := nb_periodic cn |}.
  Proof.
    split.
    - intros H. apply nb_init_inv in H. destruct H as [L E]. split; [exact L|]. rewrite E. reflexivity.
    - intros [L E]. unfold nb_fresh. rewrite nb_init_ok by exact L. rewrite <- E. now destruct cn.
  Qed.
  Lemma nb_init_fresh cn (c' : nurbs R d) : nb_initialize cn = Ok c' -> nb_fresh c'.
  Proof. intros H. apply nb_init_inv in H. destruct H as [L ->]. apply nb_fresh_iff. split; [exact L|reflexivity]. Qed.
  Lemma nb_fresh_validate cn : nb_fresh cn -> (length (nb_pts cn) + 1 <= length (nb_knots cn))%nat -> nb_validate cn = Ok tt.
  Proof.
    intros H Hk. apply nb_fresh_iff in H. destruct H as [L E]. unfold nb_validate, bs_validate, bs_degree, nb_base. cbn [bs_pts bs_knots].
    unfold zlen. match goal with |- context [(?a <? 0)%Z] => destruct (Z.ltb_spec a 0); [lia|] end. cbn [bind]. rewrite E. cbn [bs_pts bs_periodic].
    unfold zlen. rewrite hrows_length by (symmetry; exact L); rewrite L, !Z.eqb_refl. cbn [negb orb]. now rewrite eqb_reflx.
  Qed.
  Lemma nb_fresh_eval cn t : nb_fresh cn -> (length (nb_pts cn) + 1 <= length (nb_knots cn))%nat ->
    nb_evaluate cn t = (do p <- bs_evaluate (nb_hom cn) t; h_point p).
  Proof. intros H Hk. unfold nb_evaluate. now rewrite nb_fresh_validate. Qed.

  (** The properties of B-splines depend on the control points only through their number. *)
  Lemma valid_len {P P'} (l : list P) (l' : list P') knots : length l = length l' ->
    (valid_bspline l knots <-> valid_bspline l' knots) /\ (regular_start l knots <-> regular_start l' knots) /\
    lower_of l knots = lower_of l' knots /\ upper_of l knots = upper_of l' knots /\ bspline_degree l knots = bspline_degree l' knots.
  Proof.
    intros H. assert (E : bspline_degree l knots = bspline_degree l' knots) by (unfold bspline_degree; now rewrite H).
    split; [|split; [|split; [|split]]].
    - split; intros [V1 V2 V3 V4]; split; rewrite ?E, ?H in *; assumption.
    - unfold regular_start. rewrite E. tauto.
    - unfold lower_of. now rewrite E.
    - unfold upper_of. now rewrite H.
    - exact E.
  Qed.
End Consistent.

(** * C23 *)
Lemma rational_bezier_eval d (c0 : rbezier R d) t :
  rb_pts c0 <> [] -> length (rb_weights c0) = length (rb_pts c0) -> rb_periodic c0 = false ->
  let n := length (rb_pts c0) in
  exists c, rb_initialize c0 = Ok c /\
    (weight_sum n (bezier_basis n t) (rb_weights c0) <> 0 ->
       rb_evaluate c t = Ok (weighted_mean n (bezier_basis n t) (rb_weights c0) (rb_pts c0))) /\
    (weight_sum n (bezier_basis n t) (rb_weights c0) = 0 -> rb_evaluate c t = NonFinite).
Proof.
  intros Hne HL Hp n. eexists. split; [apply rb_init_ok; exact HL|].
  set (c := {| rb_pts := _ |}).
  assert (Hf : rb_fresh c) by (apply rb_fresh_iff; split; [exact HL|reflexivity]).
  rewrite (rb_fresh_eval c t Hf). subst c. cbn [rb_hom]. rewrite Hp.
  change {| bz_pts := ?l; bz_periodic := false |} with (mk_bezier l).
  assert (Hlen : length (hrows (rb_pts c0) (rb_weights c0)) = n) by (apply hrows_length; symmetry; exact HL).
  rewrite bezier_bernstein.
  2:{ intros E. rewrite E in Hlen. simpl in Hlen. subst n. destruct (rb_pts c0); [congruence|discriminate]. }
  cbn [bind]. unfold bernstein_curve. rewrite Hlen.
  change (fun i : nat => pmul (bernstein (n - 1) i t) ?g) with (fun i : nat => pmul (bezier_basis n t i) g).
  apply hsum_point; [reflexivity|exact HL].
Qed.

Lemma rational_bspline_eval d (c0 : nurbs R d) t :
  length (nb_weights c0) = length (nb_pts c0) -> nb_periodic c0 = false ->
  valid_bspline (nb_pts c0) (nb_knots c0) -> knots_apart (/ IZR (10 ^ 16)) (nb_knots c0) ->
  lower_of (nb_pts c0) (nb_knots c0) <= t <= upper_of (nb_pts c0) (nb_knots c0) ->
  (regular_start (nb_pts c0) (nb_knots c0) \/ lower_of (nb_pts c0) (nb_knots c0) < t) ->
  let n := length (nb_pts c0) in
  exists c, nb_initialize c0 = Ok c /\
    (weight_sum n (bspline_basis n (nb_knots c0) t) (nb_weights c0) <> 0 ->
       nb_evaluate c t = Ok (weighted_mean n (bspline_basis n (nb_knots c0) t) (nb_weights c0) (nb_pts c0))) /\
    (weight_sum n (bspline_basis n (nb_knots c0) t) (nb_weights c0) = 0 -> nb_evaluate c t = NonFinite).
Proof.
  intros HL Hp Hv Ha Ht Hs n. eexists. split; [apply nb_init_ok; exact HL|].
  set (c := {| nb_pts := _ |}).
  assert (Hf : nb_fresh c) by (apply nb_fresh_iff; split; [exact HL|reflexivity]).
  rewrite (nb_fresh_eval c t Hf) by exact (vb_len _ _ Hv). subst c. cbn [nb_hom]. rewrite Hp.
  assert (Hlen : length (hrows (nb_pts c0) (nb_weights c0)) = n) by (apply hrows_length; symmetry; exact HL).
  destruct (valid_len (hrows (nb_pts c0) (nb_weights c0)) (nb_pts c0) (nb_knots c0) Hlen) as (V1 & V2 & V3 & V4 & V5).
  rewrite bspline_eval; cbn [bs_pts bs_knots bs_periodic]; rewrite ?V3, ?V4; try assumption; try reflexivity; try tauto.
  cbn [bind]. unfold bspline_curve. rewrite V5, Hlen.
  change (fun i : nat => pmul (cox (knot_of (nb_knots c0)) (knot_of (nb_knots c0) (Z.of_nat n)) (bspline_degree (nb_pts c0) (nb_knots c0)) (Z.of_nat i) t) ?g)
    with (fun i : nat => pmul (bspline_basis n (nb_knots c0) t i) g).
  apply hsum_point; [reflexivity|exact HL].
Qed.

(** * C24: the quotient rule *)
Lemma derivable_pt_lim_val f t l l' : derivable_pt_lim f t l -> l = l' -> derivable_pt_lim f t l'.
Proof. now intros H <-. Qed.

Section Quotient.
  Context {d : nat} (p p1 p2 : R -> vec R (S d)).
  Definition q0 (t : R) : vec R d := pmul (/ vlast d (p t)) (vhead d (p t)).
  Definition q1 (t : R) : vec R d :=
    pmul (/ vlast d (p t)) (psub (vhead d (p1 t)) (pmul (/ vlast d (p t)) (pmul (vlast d (p1 t)) (vhead d (p t))))).
  Definition q2 (t : R) : vec R d :=
    pmul (/ vlast d (p t)) (psub (psub (vhead d (p2 t)) (pmul (vlast d (p2 t)) (q0 t))) (pmul (2 * vlast d (p1 t)) (q1 t))).

  Lemma pdivs_ok (v : vec R d) (w : R) : w <> 0 -> pdivs v w = Ok (pmul (/ w) v).
  Proof.
    intros H. unfold pdivs. simpl seq_. cbn [s0 R_ops]. destruct (Reqb_spec w 0); [contradiction|].
    cbn [sdiv s1 R_ops]. unfold Rdiv. now rewrite Rmult_1_l.
  Qed.

  Lemma quotient_rule t : vlast d (p t) <> 0 ->
    h_point (p t) = Ok (q0 t) /\ h_derivative (p t) (p1 t) = Ok (q1 t) /\ h_2nd_derivative (p t) (p1 t) (p2 t) = Ok (q2 t).
  Proof.
    intros H. assert (E0 : h_point (p t) = Ok (q0 t)) by (now apply h_point_ok).
    assert (E1 : h_derivative (p t) (p1 t) = Ok (q1 t)).
    { unfold h_derivative. rewrite pdivs_ok by exact H. cbn [bind]. now rewrite pdivs_ok. }
    split; [exact E0|]. split; [exact E1|]. unfold h_2nd_derivative. rewrite E0, E1. cbn [bind]. now rewrite pdivs_ok.
  Qed.

  Lemma quotient_deriv t : vlast d (p t) <> 0 -> vderiv p t (p1 t) -> vderiv p1 t (p2 t) ->
    vderiv q0 t (q1 t) /\ vderiv q1 t (q2 t).
  Proof.
    intros H D1 D2.
    assert (Dw : derivable_pt_lim (fun x => vlast d (p x)) t (vlast d (p1 t))).
    { eapply derivable_pt_lim_ext; [intros x; symmetry; apply vlast_coord|]. rewrite vlast_coord. apply D1. lia. }
    assert (Dw1 : derivable_pt_lim (fun x => vlast d (p1 x)) t (vlast d (p2 t))).
    { eapply derivable_pt_lim_ext; [intros x; symmetry; apply vlast_coord|]. rewrite vlast_coord. apply D2. lia. }
    split; intros i Hi.
    - specialize (D1 i ltac:(lia)).
      eapply derivable_pt_lim_ext with (f := fun x => coord (S d) i (p x) / vlast d (p x)).
      { intros x. unfold q0. rewrite coord_mul, coord_vhead by assumption. unfold Rdiv. simpl smul. ring. }
      pose proof (derivable_pt_lim_div _ _ t _ _ D1 Dw H) as D. eapply derivable_pt_lim_val; [exact D|].
      unfold q1. rewrite coord_mul, coord_sub, !coord_mul, !coord_vhead by assumption. cbn beta. unfold Rsqr. simpl smul. simpl ssub. field. exact H.
    - pose proof (D1 i ltac:(lia)) as Da. pose proof (D2 i ltac:(lia)) as Db.
      set (a := fun x => coord (S d) i (p x)) in *. set (a1 := fun x => coord (S d) i (p1 x)) in *.
      set (w := fun x => vlast d (p x)) in *. set (w1 := fun x => vlast d (p1 x)) in *.
      eapply derivable_pt_lim_ext with (f := fun x => (a1 x - w1 x * a x / w x) / w x).
      { intros x. unfold q1. rewrite coord_mul, coord_sub, !coord_mul, !coord_vhead by assumption. unfold Rdiv, a, a1, w, w1. simpl smul. simpl ssub. ring. }
      pose proof (derivable_pt_lim_mult w1 a t _ _ Dw1 Da) as Dm.
      pose proof (derivable_pt_lim_div _ w t _ _ Dm Dw H) as Dq.
      pose proof (derivable_pt_lim_minus a1 _ t _ _ Db Dq) as Ds.
      pose proof (derivable_pt_lim_div _ w t _ _ Ds Dw H) as D. eapply derivable_pt_lim_val; [exact D|].
      unfold q2, q1, q0. rewrite coord_mul, !coord_sub, !coord_mul, !coord_vhead, coord_sub, !coord_mul, !coord_vhead by assumption.
      fold (w t) (w1 t) (a t) (a1 t). unfold div_fct, mult_fct, minus_fct, Rsqr. change (vlast d (p t)) with (w t). change (vlast d (p1 t)) with (w1 t).
      change (coord (S d) i (p t)) with (a t). change (coord (S d) i (p1 t)) with (a1 t). simpl smul. simpl ssub. field. exact H.
  Qed.
End Quotient.

Lemma rational_bezier_derivs d (c : rbezier R d) : rb_fresh c -> rb_pts c <> [] -> rb_periodic c = false ->
  let n := length (rb_pts c) in
  exists f f' f'' : R -> vec R d, forall t, weight_sum n (bezier_basis n t) (rb_weights c) <> 0 ->
    rb_evaluate c t = Ok (f t) /\ rb_evaluate_derivative c t = Ok (f' t) /\ rb_evaluate_2nd_derivative c t = Ok (f'' t) /\
    vderiv f t (f' t) /\ vderiv f' t (f'' t).
Proof.
  intros Hf Hne Hp n. pose proof (rb_fresh_validate c Hf) as Hval. apply rb_fresh_iff in Hf. destruct Hf as [HL E].
  rewrite Hp in E. change (rb_hom c = mk_bezier (hrows (rb_pts c) (rb_weights c))) in E.
  assert (Hlen : length (hrows (rb_pts c) (rb_weights c)) = n) by (apply hrows_length; symmetry; exact HL).
  assert (Hneh : hrows (rb_pts c) (rb_weights c) <> []).
  { intros E0. rewrite E0 in Hlen. simpl in Hlen. subst n. destruct (rb_pts c); [congruence|discriminate]. }
  destruct (bezier_derivatives (S d) _ Hneh) as (p & p1 & p2 & E0 & E1 & E2 & D1 & D2).
  exists (q0 p), (q1 p p1), (q2 p p1 p2). intros t Hw.
  assert (Hwp : vlast d (p t) <> 0).
  { intros H0. apply Hw. rewrite <- H0. pose proof (E0 t) as Et. rewrite bezier_bernstein in Et by exact Hneh.
    assert (Ep : p t = bernstein_curve (hrows (rb_pts c) (rb_weights c)) t) by congruence.
    rewrite Ep. unfold bernstein_curve. rewrite Hlen. symmetry.
    apply (hsum_last n (bezier_basis n t)); [reflexivity|exact HL]. }
  destruct (quotient_rule p p1 p2 t Hwp) as (Q0 & Q1 & Q2).
  destruct (quotient_deriv p p1 p2 t Hwp (D1 t) (D2 t)) as (QD1 & QD2).
  unfold rb_evaluate, rb_evaluate_derivative, rb_evaluate_2nd_derivative. rewrite Hval, E, E0, E1, E2. cbn [bind]. auto.
Qed.

Lemma rational_bspline_derivs d (c : nurbs R d) t : nb_fresh c -> nb_periodic c = false ->
  valid_bspline (nb_pts c) (nb_knots c) -> knots_apart (/ IZR (10 ^ 16)) (nb_knots c) ->
  lower_of (nb_pts c) (nb_knots c) <= t <= upper_of (nb_pts c) (nb_knots c) ->
  (nth (bspline_degree (nb_pts c) (nb_knots c)) (nb_knots c) 0 < nth (bspline_degree (nb_pts c) (nb_knots c) + 1) (nb_knots c) 0
   \/ lower_of (nb_pts c) (nb_knots c) < t) ->
  let n := length (nb_pts c) in
  exists (k : nat) (f f' f'' : R -> vec R d),
    (bspline_degree (nb_pts c) (nb_knots c) <= k < n)%nat /\
    span_set (nb_knots c) (upper_of (nb_pts c) (nb_knots c)) k t /\
    nth k (nb_knots c) 0 < nth (k + 1) (nb_knots c) 0 /\
    (forall x, span_set (nb_knots c) (upper_of (nb_pts c) (nb_knots c)) k x ->
       (nth (bspline_degree (nb_pts c) (nb_knots c)) (nb_knots c) 0 < nth (bspline_degree (nb_pts c) (nb_knots c) + 1) (nb_knots c) 0
        \/ lower_of (nb_pts c) (nb_knots c) < x) ->
       weight_sum n (bspline_basis n (nb_knots c) x) (nb_weights c) <> 0 ->
       nb_evaluate c x = Ok (f x) /\ nb_evaluate_derivative c x = Ok (f' x) /\ nb_evaluate_2nd_derivative c x = Ok (f'' x) /\
       vderiv f x (f' x) /\ vderiv f' x (f'' x)).
Proof.
  intros Hf Hp Hv Ha Ht Hr n. pose proof (nb_fresh_validate c Hf (vb_len _ _ Hv)) as Hval. apply nb_fresh_iff in Hf. destruct Hf as [HL E].
  rewrite Hp in E.
  assert (Hlen : length (hrows (nb_pts c) (nb_weights c)) = n) by (apply hrows_length; symmetry; exact HL).
  destruct (valid_len (hrows (nb_pts c) (nb_weights c)) (nb_pts c) (nb_knots c) Hlen) as (V1 & V2 & V3 & V4 & V5).
  destruct (bspline_derivs (nb_hom c) t) as (k & p & p1 & p2 & Hk & S1 & S2 & Ev & D1 & D2); rewrite ?E; cbn [bs_pts bs_knots bs_periodic]; rewrite ?V3, ?V4, ?V5; try tauto.
  rewrite E in Hk, S1, S2, Ev. cbn [bs_pts bs_knots bs_periodic] in Hk, S1, S2, Ev. rewrite ?V3, ?V4, ?V5 in *.
  rewrite Hlen in Hk.
  exists k, (q0 p), (q1 p p1), (q2 p p1 p2). split; [exact Hk|]. split; [exact S1|]. split; [exact S2|]. intros x Hx Hrx Hw.
  destruct (Ev x Hx Hrx) as (E0 & E1 & E2).
  assert (Hdom : lower_of (nb_pts c) (nb_knots c) <= x <= upper_of (nb_pts c) (nb_knots c)).
  { pose proof (vb_sorted _ _ Hv) as Hs. pose proof (vb_len _ _ Hv) as Hl.
    assert (nth (bspline_degree (nb_pts c) (nb_knots c)) (nb_knots c) 0 <= nth k (nb_knots c) 0) by (apply Hs; fold n in Hl; lia).
    assert (nth (k + 1) (nb_knots c) 0 <= nth (length (nb_pts c)) (nb_knots c) 0) by (apply Hs; unfold n in Hk; lia).
    unfold lower_of, upper_of in *. unfold span_set in Hx. lra. }
  assert (Hwp : vlast d (p x) <> 0).
  { intros H0. apply Hw. rewrite <- H0. rewrite bspline_eval in E0; cbn [bs_pts bs_knots bs_periodic]; rewrite ?V3, ?V4; try tauto.
    2:{ destruct Hrx as [Hrx|Hrx]; [left|right; exact Hrx]. apply V2. left. exact Hrx. }
    assert (Ep : p x = bspline_curve (hrows (nb_pts c) (nb_weights c)) (nb_knots c) x) by (cbn [bs_pts bs_knots] in E0; congruence).
    rewrite Ep. unfold bspline_curve. rewrite V5, Hlen. symmetry.
    apply (hsum_last n (bspline_basis n (nb_knots c) x)); [reflexivity|exact HL]. }
  destruct (quotient_rule p p1 p2 x Hwp) as (Q0 & Q1 & Q2).
  destruct (quotient_deriv p p1 p2 x Hwp (D1 x) (D2 x)) as (QD1 & QD2).
  unfold nb_evaluate, nb_evaluate_derivative, nb_evaluate_2nd_derivative. rewrite Hval, E, E0, E1, E2. cbn [bind]. auto.
Qed.
