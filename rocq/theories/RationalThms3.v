(** Rational curves: conversions, splitting, degree elevation and knot operations. *)
From Coq Require Import Reals Lra Lia ZArith List Bool Permutation.
From Verif Require Import Monad MonadFacts LoopFacts Scalar ScalarFacts Spec SpecFacts Polar ModelCurve CurveFacts ModelBezier
  BezierFacts BezierMath BezierThms BSplineMath ModelBSpline BSplineFacts BSplineThms BSplineThms2 BSplineThms3
  BSplineInsert BSplineInsert2 BSplineInsert3 BSplineSplit BSplineConvert BezierConv ModelRational RationalFacts RationalThms RationalThms2.
Import ListNotations.
Local Open Scope R_scope.

(** * Conversions (C28) *)
Section Conv.
  Context {d : nat}.

  Lemma alloc_repeat {A} (a : A) (n : nat) : alloc a (Z.of_nat n) = Ok (repeat a n).
  Proof. unfold alloc. destruct (Z.leb_spec 0 (Z.of_nat n)); [|lia]. now rewrite Nat2Z.id. Qed.

  Lemma bezier_to_rational (c : bezier (vec R d)) : bz_pts c <> [] ->
    exists c', bezier_to_rbezier c = Ok c' /\ rb_fresh c' /\ rb_pts c' = bz_pts c /\ rb_periodic c' = false /\
      forall t, rb_evaluate c' t = bz_evaluate (mk_bezier (bz_pts c)) t.
  Proof.
    intros Hne. unfold bezier_to_rbezier. replace (bz_degree c + 1)%Z with (Z.of_nat (length (bz_pts c))) by (unfold bz_degree, zlen; lia).
    rewrite alloc_repeat. cbn [bind]. unfold mk_rbezier. rewrite rb_init_ok by apply repeat_length. eexists. split; [reflexivity|].
    cbn [rb_set_weights rb_set_control_points rb_empty rb_pts rb_weights rb_periodic].
    match goal with |- rb_fresh ?x /\ _ => set (c' := x) end.
    assert (Hf : rb_fresh c') by (apply rb_fresh_iff; split; [apply repeat_length|reflexivity]).
    split; [exact Hf|]. split; [reflexivity|]. split; [reflexivity|]. intros t.
    apply (rb_equal_weights c' 1 t); [lra|exact Hne|exact Hf|reflexivity].
  Qed.

  Lemma weights_differ_repeat (w : R) n : weights_differ (repeat w n) = false.
  Proof.
    destruct n; [reflexivity|]. change (existsb (fun x : R => negb (x =? w)%S) (repeat w (S n)) = false). generalize (S n). intros m.
    induction m as [|m IH]; [reflexivity|]. cbn [repeat existsb]. rewrite IH.
    simpl seq_. destruct (Reqb_spec w w); [reflexivity|congruence].
  Qed.
  Lemma weights_differ_spec (ws : list R) : weights_differ ws = false -> exists w, ws = repeat w (length ws).
  Proof.
    destruct ws as [|w ws]; intros H; [now exists 0|]. exists w. cbn [weights_differ existsb] in H.
    apply orb_false_iff in H. destruct H as [_ H]. cbn [length repeat]. f_equal.
    induction ws as [|x ws IH]; [reflexivity|]. cbn [existsb] in H. apply orb_false_iff in H. destruct H as [Hx H].
    cbn [length repeat]. rewrite <- IH by exact H. f_equal. simpl seq_ in Hx. destruct (Reqb_spec x w); [assumption|discriminate].
  Qed.

  Lemma rational_to_bezier (c : rbezier R d) : rb_fresh c -> rb_pts c <> [] ->
    (forall w, w <> 0 -> rb_weights c = repeat w (length (rb_pts c)) ->
       exists c', rbezier_to_bezier c = Ok c' /\ bz_pts c' = rb_pts c /\
         (rb_periodic c = false -> forall t, bz_evaluate c' t = rb_evaluate c t)) /\
    ((forall w, rb_weights c <> repeat w (length (rb_pts c))) -> rbezier_to_bezier c = Throw invalid_setting_error).
  Proof.
    intros Hf Hne. split.
    - intros w Hw E. unfold rbezier_to_bezier. rewrite E, weights_differ_repeat. eexists. split; [reflexivity|]. split; [reflexivity|].
      intros Hp t. rewrite (rb_equal_weights c w t Hw Hne Hf E), Hp. reflexivity.
    - intros H. unfold rbezier_to_bezier. destruct (weights_differ (rb_weights c)) eqn:E; [reflexivity|].
      apply weights_differ_spec in E. destruct E as (w & E). exfalso. apply (H w).
      apply rb_fresh_iff in Hf. destruct Hf as [HL _]. rewrite <- HL. exact E.
  Qed.

  Lemma bspline_to_rational (c : bspline R (vec R d)) : valid_bspline (bs_pts c) (bs_knots c) ->
    exists c', bspline_to_nurbs c = Ok c' /\ nb_fresh c' /\ nb_pts c' = bs_pts c /\ nb_knots c' = bs_knots c /\ nb_periodic c' = false /\
      forall t, nb_evaluate c' t = bs_evaluate (mk_bspline (bs_pts c) (bs_knots c)) t.
  Proof.
    intros Hv. unfold bspline_to_nurbs. unfold zlen. rewrite alloc_repeat. cbn [bind]. unfold mk_nurbs.
    rewrite nb_init_ok by apply repeat_length. eexists. split; [reflexivity|].
    match goal with |- nb_fresh ?x /\ _ => set (c' := x) end.
    assert (Hf : nb_fresh c') by (apply nb_fresh_iff; split; [apply repeat_length|reflexivity]).
    split; [exact Hf|]. split; [reflexivity|]. split; [reflexivity|]. split; [reflexivity|]. intros t.
    apply (nb_equal_weights c' 1 t); [lra|exact Hv|exact Hf|reflexivity].
  Qed.

  Lemma rational_to_bspline (c : nurbs R d) : nb_fresh c -> valid_bspline (nb_pts c) (nb_knots c) ->
    (forall w, w <> 0 -> nb_weights c = repeat w (length (nb_pts c)) ->
       exists c', nurbs_to_bspline c = Ok c' /\ bs_pts c' = nb_pts c /\ bs_knots c' = nb_knots c /\
         (nb_periodic c = false -> forall t, bs_evaluate c' t = nb_evaluate c t)) /\
    ((forall w, nb_weights c <> repeat w (length (nb_pts c))) -> nurbs_to_bspline c = Throw invalid_setting_error).
  Proof.
    intros Hf Hv. split.
    - intros w Hw E. unfold nurbs_to_bspline. rewrite E, weights_differ_repeat. eexists. split; [reflexivity|]. split; [reflexivity|].
      split; [reflexivity|].
      intros Hp t. rewrite (nb_equal_weights c w t Hw Hv Hf E). unfold nb_base. rewrite Hp. reflexivity.
    - intros H. unfold nurbs_to_bspline. destruct (weights_differ (nb_weights c)) eqn:E; [reflexivity|].
      apply weights_differ_spec in E. destruct E as (w & E). exfalso. apply (H w).
      apply nb_fresh_iff in Hf. destruct Hf as [HL _]. rewrite <- HL. exact E.
  Qed.
End Conv.

(** * Positive weights are preserved *)
Section Positive.
  Context {d : nat}.
  Definition posw (q : vec R (S d)) : Prop := 0 < vlast d q.
  Lemma posw_convex : convexP posw.
  Proof.
    intros a x y Ha Hx Hy. unfold posw in *. rewrite (lm_add _ (vlast_lin d)), !(lm_mul _ (vlast_lin d)). simpl.
    destruct (Req_EM_T a 0) as [->|]; [lra|]. assert (0 < a) by lra.
    apply Rplus_le_lt_0_compat; [apply Rmult_le_pos; lra|now apply Rmult_lt_0_compat].
  Qed.
  Lemma posw_rows (pts : list (vec R d)) ws : length pts = length ws -> (Forall posw (hrows pts ws) <-> Forall (fun w => 0 < w) ws).
  Proof.
    intros H. pose proof (vlast_hrows pts ws H) as E. rewrite <- E at 2. rewrite Forall_map. reflexivity.
  Qed.

  Lemma rset_hom_ok (h : bezier (vec R (S d))) : Forall posw (bz_pts h) ->
    exists c, rb_set_homogeneous h = Ok c /\ rb_fresh c /\ rb_hom c = h /\ rb_periodic c = bz_periodic h /\
      length (rb_pts c) = length (bz_pts h) /\ Forall (fun w => 0 < w) (rb_weights c).
  Proof.
    intros HF. assert (HF' : Forall (fun q => vlast d q <> 0) (bz_pts h)) by (eapply Forall_impl; [|exact HF]; unfold posw; intros; lra).
    destruct (dehom_total _ HF') as (pts & E). unfold rb_set_homogeneous. rewrite E. cbn [bind].
    apply dehom_rows in E. destruct E as (L & E & _).
    match goal with |- context [rb_validate ?x] => set (c := x) end.
    assert (Hf : rb_fresh c).
    { apply rb_fresh_iff. subst c. cbn [rb_pts rb_weights rb_hom rb_periodic]. split; [rewrite map_length; symmetry; exact L|].
      destruct h as [hp hper]. cbn [bz_pts bz_periodic] in *. apply f_equal2; [symmetry; exact E|reflexivity]. }
    rewrite (rb_fresh_validate c Hf). cbn [bind]. exists c. split; [reflexivity|]. split; [exact Hf|].
    split; [reflexivity|]. split; [reflexivity|]. split; [exact L|]. subst c. cbn [rb_weights]. apply Forall_map. exact HF.
  Qed.
  Lemma nset_hom_ok (h : bspline R (vec R (S d))) : Forall posw (bs_pts h) -> (length (bs_pts h) + 1 <= length (bs_knots h))%nat ->
    exists c, nb_set_homogeneous h = Ok c /\ nb_fresh c /\ nb_hom c = h /\ nb_knots c = bs_knots h /\ nb_periodic c = bs_periodic h /\
      length (nb_pts c) = length (bs_pts h) /\ Forall (fun w => 0 < w) (nb_weights c).
  Proof.
    intros HF Hk. assert (HF' : Forall (fun q => vlast d q <> 0) (bs_pts h)) by (eapply Forall_impl; [|exact HF]; unfold posw; intros; lra).
    destruct (dehom_total _ HF') as (pts & E). unfold nb_set_homogeneous. rewrite E. cbn [bind].
    apply dehom_rows in E. destruct E as (L & E & _).
    match goal with |- context [nb_validate ?x] => set (c := x) end.
    assert (Hf : nb_fresh c).
    { apply nb_fresh_iff. subst c. cbn [nb_pts nb_weights nb_hom nb_knots nb_periodic]. split; [rewrite map_length; symmetry; exact L|].
      destruct h as [hp hk hper]. cbn [bs_pts bs_knots bs_periodic] in *. apply f_equal3; [symmetry; exact E|reflexivity|reflexivity]. }
    rewrite (nb_fresh_validate c Hf) by (subst c; cbn [nb_pts nb_knots]; rewrite L; exact Hk). cbn [bind]. exists c.
    split; [reflexivity|]. split; [exact Hf|].
    split; [reflexivity|]. split; [reflexivity|]. split; [reflexivity|]. split; [exact L|]. subst c. cbn [nb_weights]. apply Forall_map. exact HF.
  Qed.
End Positive.

(** * Split and elevation of rational Bezier curves (C63) *)
Section RSplit.
  Context {d : nat}.

  Lemma fresh_rows (c : rbezier R d) : rb_fresh c -> length (hrows (rb_pts c) (rb_weights c)) = length (rb_pts c).
  Proof. intros Hf. apply rb_fresh_iff in Hf. destruct Hf as [HL _]. apply hrows_length. symmetry. exact HL. Qed.
  Lemma fresh_rows_ne (c : rbezier R d) : rb_fresh c -> rb_pts c <> [] -> hrows (rb_pts c) (rb_weights c) <> [].
  Proof. intros Hf Hne E. pose proof (fresh_rows c Hf) as L. rewrite E in L. destruct (rb_pts c); [congruence|discriminate]. Qed.
  Lemma fresh_pos (c : rbezier R d) : rb_fresh c -> Forall (fun w => 0 < w) (rb_weights c) -> Forall posw (bz_pts (rb_hom c)).
  Proof. intros Hf HF. apply rb_fresh_iff in Hf. destruct Hf as [HL ->]. apply posw_rows; [symmetry; exact HL|exact HF]. Qed.

  Lemma hom_eval_np (c : rbezier R d) t : rb_fresh c -> rb_pts c <> [] -> rb_periodic c = false ->
    rb_evaluate c t = h_point (bernstein_curve (bz_pts (rb_hom c)) t).
  Proof.
    intros Hf Hne Hp. rewrite (rb_fresh_eval c t Hf). pose proof (fresh_rows_ne c Hf Hne) as Hn. apply rb_fresh_iff in Hf. destruct Hf as [HL E].
    rewrite E, Hp. change {| bz_pts := ?l; bz_periodic := false |} with (mk_bezier l). rewrite bezier_bernstein by exact Hn. reflexivity.
  Qed.

  Lemma rational_split (c cn : rbezier R d) t : rb_fresh c -> rb_pts c <> [] -> Forall (fun w => 0 < w) (rb_weights c) ->
    rb_initialize (rb_set_periodic c false) = Ok cn -> 0 < t < 1 ->
    exists c1 c2, split_rbezier c t = Ok [c1; c2] /\ rb_fresh c1 /\ rb_fresh c2 /\
      rb_periodic c1 = false /\ rb_periodic c2 = false /\
      length (rb_pts c1) = length (rb_pts c) /\ length (rb_pts c2) = length (rb_pts c) /\
      Forall (fun w => 0 < w) (rb_weights c1) /\ Forall (fun w => 0 < w) (rb_weights c2) /\
      forall s, rb_evaluate c1 s = rb_evaluate cn (t * s) /\ rb_evaluate c2 s = rb_evaluate cn (t + (1 - t) * s).
  Proof.
    intros Hf Hne Hw Hi Ht. pose proof (rb_init_fresh _ _ Hi) as Hfn. apply rb_init_inv in Hi. destruct Hi as [_ Ecn].
    cbn [rb_set_periodic rb_pts rb_weights rb_periodic] in Ecn.
    pose proof (fresh_pos c Hf Hw) as Hpos. pose proof (fresh_rows_ne c Hf Hne) as Hneh. pose proof (fresh_rows c Hf) as Hlen.
    apply rb_fresh_iff in Hf. destruct Hf as [HL E].
    assert (Hneh' : bz_pts (rb_hom c) <> []) by (rewrite E; exact Hneh).
    destruct (bezier_split _ (rb_hom c) t Hneh' Ht) as (l & r & Es & L1 & L2 & Hv).
    destruct (bezier_split_conv _ (rb_hom c) t l r Hneh' Ht Es) as [C1 C2].
    destruct (rset_hom_ok (mk_bezier l) (C1 _ posw_convex Hpos)) as (c1 & E1 & F1 & H1 & P1 & N1 & W1).
    destruct (rset_hom_ok (mk_bezier r) (C2 _ posw_convex Hpos)) as (c2 & E2 & F2 & H2 & P2 & N2 & W2).
    exists c1, c2. split.
    { unfold split_rbezier, split_bezier. rewrite Es.
      assert (Hd : bz_in_domain t = true).
      { unfold bz_in_domain. cbn [sle ssub sadd s0 s1 R_ops]. pose proof seps_pos. rewrite !Rleb_true; [reflexivity|lra|lra]. }
      rewrite Hd. cbn [negb]. unfold bz_lower, bz_upper. simpl seq_. cbn [s0 s1 R_ops].
      destruct (Reqb_spec t 0); [lra|]. destruct (Reqb_spec t 1); [lra|]. cbn [bind].
      change (get [mk_bezier l; mk_bezier r] 0) with (Ok (mk_bezier l)). change (get [mk_bezier l; mk_bezier r] 1) with (Ok (mk_bezier r)).
      cbn [bind mapM]. rewrite E1. cbn [bind]. rewrite E2. reflexivity. }
    cbn [mk_bezier bz_pts bz_periodic] in *. rewrite E in L1, L2, Hv. cbn [bz_pts] in L1, L2, Hv. rewrite Hlen in L1, L2.
    repeat (split; [first [exact F1|exact F2|exact P1|exact P2|exact (eq_trans N1 L1)|exact (eq_trans N2 L2)|exact W1|exact W2]|]).
    assert (Hz : forall x : rbezier R d, length (rb_pts x) = length (rb_pts c) -> rb_pts x <> []).
    { intros x Hx E0. rewrite E0 in Hx. destruct (rb_pts c); [congruence|discriminate]. }
    assert (Hncn : rb_pts cn <> []) by (rewrite Ecn; exact Hne).
    intros s. rewrite (hom_eval_np c1 s F1 (Hz _ (eq_trans N1 L1)) P1), (hom_eval_np c2 s F2 (Hz _ (eq_trans N2 L2)) P2).
    rewrite !(hom_eval_np cn _ Hfn Hncn) by (rewrite Ecn; reflexivity). rewrite H1, H2, Ecn. cbn [rb_hom bz_pts].
    destruct (Hv s) as [Hv1 Hv2]. rewrite <- Hv1, <- Hv2. split; reflexivity.
  Qed.

  Lemma rational_elevate (c : rbezier R d) : rb_fresh c -> rb_pts c <> [] -> Forall (fun w => 0 < w) (rb_weights c) ->
    exists c', rb_elevate_degree c = Ok c' /\ rb_fresh c' /\ rb_periodic c' = rb_periodic c /\
      length (rb_pts c') = S (length (rb_pts c)) /\ Forall (fun w => 0 < w) (rb_weights c') /\
      forall t, rb_evaluate c' t = rb_evaluate c t.
  Proof.
    intros Hf Hne Hw. pose proof (rb_fresh_validate c Hf) as Hval. pose proof (fun t => rb_fresh_eval c t Hf) as Hev.
    pose proof (fresh_pos c Hf Hw) as Hpos. pose proof (fresh_rows_ne c Hf Hne) as Hneh. pose proof (fresh_rows c Hf) as Hlen.
    apply rb_fresh_iff in Hf. destruct Hf as [HL E].
    assert (Hneh' : bz_pts (rb_hom c) <> []) by (rewrite E; exact Hneh).
    destruct (bezier_elevate _ (rb_hom c) Hneh') as (l & El & Ll & Hv).
    pose proof (bezier_elevate_conv _ _ _ Hneh' El) as C.
    destruct (rset_hom_ok {| bz_pts := l; bz_periodic := bz_periodic (rb_hom c) |} (C _ posw_convex Hpos)) as (c' & E' & F' & H' & P' & N' & W').
    exists c'. cbn [bz_pts bz_periodic] in *. assert (Hper : bz_periodic (rb_hom c) = rb_periodic c) by (rewrite E; reflexivity). rewrite Hper in *.
    split. { unfold rb_elevate_degree. rewrite Hval. cbn [bind]. rewrite El. cbn [bind]. rewrite E'. cbn [bind]. rewrite P', eqb_reflx. reflexivity. }
    split; [exact F'|]. split; [exact P'|]. split; [rewrite N', Ll, E; cbn [bz_pts]; rewrite Hlen; reflexivity|]. split; [exact W'|].
    intros t. rewrite Hev, (rb_fresh_eval c' t F'), H', E. cbn [bz_pts] in *. rewrite E in Hv. cbn [bz_pts] in Hv.
    assert (Hnl : l <> []) by (intros E0; rewrite E0 in Ll; discriminate).
    assert (Hb : forall s, bz_evaluate (mk_bezier l) s = bz_evaluate (mk_bezier (hrows (rb_pts c) (rb_weights c))) s).
    { intros s. rewrite !bezier_bernstein by assumption. now rewrite Hv. }
    destruct (rb_periodic c); [|now rewrite Hb].
    unfold bz_evaluate at 1 2. change (bz_unwrap {| bz_pts := ?x; bz_periodic := true |} t) with (unwrap_parameter true 0 1 t).
    destruct (unwrap_correct 0 1 t ltac:(lra)) as (u & k & Eu & _). rewrite Eu. cbn [bind].
    exact (f_equal (fun x => bind x h_point) (Hb u)).
  Qed.

  (** Periodicity. *)
  Lemma rational_periodic_shift (c : rbezier R d) t (m : Z) : rb_fresh c -> rb_periodic c = true ->
    rb_evaluate c (t + IZR m) = rb_evaluate c t /\
    rb_evaluate_derivative c (t + IZR m) = rb_evaluate_derivative c t /\
    rb_evaluate_2nd_derivative c (t + IZR m) = rb_evaluate_2nd_derivative c t.
  Proof.
    intros Hf Hp. apply rb_fresh_iff in Hf. destruct Hf as [HL E]. rewrite Hp in E.
    unfold rb_evaluate, rb_evaluate_derivative, rb_evaluate_2nd_derivative.
    change (rb_hom c = per_bezier (hrows (rb_pts c) (rb_weights c))) in E. rewrite E.
    destruct (bezier_periodic_shift _ (hrows (rb_pts c) (rb_weights c)) t m) as (E1 & E2 & E3).
    rewrite E1, E2, E3. auto.
  Qed.
  Lemma nurbs_periodic_shift (c : nurbs R d) t (m : Z) : nb_fresh c -> nb_periodic c = true -> valid_bspline (nb_pts c) (nb_knots c) ->
    let a := lower_of (nb_pts c) (nb_knots c) in
    let b := upper_of (nb_pts c) (nb_knots c) in
    nb_evaluate c (t + IZR m * (b - a)) = nb_evaluate c t /\
    nb_evaluate_derivative c (t + IZR m * (b - a)) = nb_evaluate_derivative c t /\
    nb_evaluate_2nd_derivative c (t + IZR m * (b - a)) = nb_evaluate_2nd_derivative c t.
  Proof.
    intros Hf Hp Hv a b. apply nb_fresh_iff in Hf. destruct Hf as [HL E].
    pose proof (hrows_length (nb_pts c) (nb_weights c) (eq_sym HL)) as L.
    destruct (valid_len (hrows (nb_pts c) (nb_weights c)) (nb_pts c) (nb_knots c) L) as (V1 & _ & V3 & V4 & _).
    destruct (bspline_periodic_shift _ (nb_hom c) t m) as (E1 & E2 & E3); [rewrite E; now apply V1|rewrite E; exact Hp|].
    rewrite E in E1, E2, E3. cbn [bs_pts bs_knots] in E1, E2, E3. rewrite V3, V4 in E1, E2, E3. rewrite <- E in E1, E2, E3.
    unfold nb_evaluate, nb_evaluate_derivative, nb_evaluate_2nd_derivative, a, b. rewrite E1, E2, E3. auto.
  Qed.
End RSplit.

(** * NURBS knot operations (C55) *)
Section NKnots.
  Context {d : nat}.

  Lemma nfresh_len (c : nurbs R d) : nb_fresh c -> length (bs_pts (nb_hom c)) = length (nb_pts c).
  Proof. intros Hf. apply nb_fresh_iff in Hf. destruct Hf as [HL ->]. apply hrows_length. symmetry. exact HL. Qed.
  Lemma nfresh_knots (c : nurbs R d) : nb_fresh c -> bs_knots (nb_hom c) = nb_knots c.
  Proof. intros Hf. apply nb_fresh_iff in Hf. now destruct Hf as [HL ->]. Qed.
  Lemma nfresh_per (c : nurbs R d) : nb_fresh c -> bs_periodic (nb_hom c) = nb_periodic c.
  Proof. intros Hf. apply nb_fresh_iff in Hf. now destruct Hf as [HL ->]. Qed.
  Lemma nfresh_pos (c : nurbs R d) : nb_fresh c -> Forall (fun w => 0 < w) (nb_weights c) -> Forall posw (bs_pts (nb_hom c)).
  Proof. intros Hf HF. apply nb_fresh_iff in Hf. destruct Hf as [HL ->]. apply posw_rows; [symmetry; exact HL|exact HF]. Qed.

  Lemma nurbs_insert (c : nurbs R d) t (r : nat) : nb_fresh c -> Forall (fun w => 0 < w) (nb_weights c) ->
    valid_bspline (nb_pts c) (nb_knots c) -> knots_apart (/ IZR (10 ^ 16)) (nb_knots c) ->
    regular_start (nb_pts c) (nb_knots c) ->
    lower_of (nb_pts c) (nb_knots c) <= t <= upper_of (nb_pts c) (nb_knots c) ->
    (forall u, In u (nb_knots c) -> u = t \/ / IZR (10 ^ 16) < Rabs (u - t)) ->
    (nth (bspline_degree (nb_pts c) (nb_knots c)) (nb_knots c) 0 < nth (bspline_degree (nb_pts c) (nb_knots c) + 1) (nb_knots c) 0
     \/ lower_of (nb_pts c) (nb_knots c) < t) ->
    (1 <= r)%nat -> (r + count_occ Req_EM_T (nb_knots c) t <= bspline_degree (nb_pts c) (nb_knots c))%nat ->
    exists c', nb_insert_knot c t (Z.of_nat r) = Ok c' /\ nb_initialize c' = Ok c' /\ nb_periodic c' = nb_periodic c /\
      Forall (fun w => 0 < w) (nb_weights c') /\
      valid_bspline (nb_pts c') (nb_knots c') /\
      bspline_degree (nb_pts c') (nb_knots c') = bspline_degree (nb_pts c) (nb_knots c) /\
      Permutation (nb_knots c') (repeat t r ++ nb_knots c) /\
      lower_of (nb_pts c') (nb_knots c') = lower_of (nb_pts c) (nb_knots c) /\
      upper_of (nb_pts c') (nb_knots c') = upper_of (nb_pts c) (nb_knots c) /\
      (forall x, (nb_periodic c = true \/ lower_of (nb_pts c) (nb_knots c) <= x <= upper_of (nb_pts c) (nb_knots c)) ->
        nb_evaluate c' x = nb_evaluate c x).
  Proof.
    intros Hf Hw Hv Ha Hs Ht Hta Hreg Hr1 Hr2.
    pose proof (nfresh_len c Hf) as L. pose proof (nfresh_knots c Hf) as K. pose proof (nfresh_per c Hf) as P.
    pose proof (nfresh_pos c Hf Hw) as Hpos. pose proof (nb_fresh_validate c Hf (vb_len _ _ Hv)) as Hval.
    destruct (valid_len (bs_pts (nb_hom c)) (nb_pts c) (nb_knots c) L) as (V1 & V2 & V3 & V4 & V5).
    destruct (bspline_insert_full (S d) (nb_hom c) t r) as (h & E & Q1 & Q2 & Q3 & Q4 & Q5 & Q6 & Q7 & _ & _ & _ & Q8);
      rewrite ?K, ?V3, ?V4, ?V5; try tauto.
    rewrite K, ?V3, ?V4, ?V5, P in *.
    destruct (nset_hom_ok h (Q8 _ posw_convex Hpos) (vb_len _ _ Q2)) as (c' & E' & F' & H' & K' & P' & N' & W').
    exists c'. unfold nb_insert_knot. rewrite Hval. cbn [bind]. rewrite E. cbn [bind].
    destruct (valid_len (nb_pts c') (bs_pts h) (bs_knots h) N') as (U1 & U2 & U3 & U4 & U5).
    rewrite K', U3, U4, U5. split; [exact E'|]. split; [exact F'|]. split; [congruence|]. split; [exact W'|].
    split; [now apply U1|]. split; [exact Q3|]. split; [exact Q4|]. split; [exact Q5|]. split; [exact Q6|].
    intros x Hx. rewrite (nb_fresh_eval c x Hf (vb_len _ _ Hv)).
    assert (Hvl : (length (nb_pts c') + 1 <= length (nb_knots c'))%nat) by (rewrite K', N'; exact (vb_len _ _ Q2)).
    rewrite (nb_fresh_eval c' x F' Hvl), H', (Q7 x Hx). reflexivity.
  Qed.

  Lemma nurbs_nonper (c cn : nurbs R d) : nb_fresh c -> nb_initialize (nb_set_periodic c false) = Ok cn ->
    nb_hom cn = mk_bspline (bs_pts (nb_hom c)) (bs_knots (nb_hom c)) /\ nb_pts cn = nb_pts c /\ nb_knots cn = nb_knots c /\ nb_fresh cn.
  Proof.
    intros Hf Hi. pose proof (nb_init_fresh _ _ Hi) as Hfn. apply nb_init_inv in Hi. destruct Hi as [_ E].
    apply nb_fresh_iff in Hf. destruct Hf as [HL Eh]. rewrite Eh. split; [|split; [|split]]; [rewrite E; reflexivity..|exact Hfn].
  Qed.

  Lemma nurbs_split (c cn : nurbs R d) t : nb_fresh c -> Forall (fun w => 0 < w) (nb_weights c) ->
    nb_initialize (nb_set_periodic c false) = Ok cn ->
    valid_bspline (nb_pts c) (nb_knots c) -> knots_apart (/ IZR (10 ^ 16)) (nb_knots c) ->
    regular_start (nb_pts c) (nb_knots c) -> (1 <= bspline_degree (nb_pts c) (nb_knots c))%nat ->
    lower_of (nb_pts c) (nb_knots c) < t < upper_of (nb_pts c) (nb_knots c) ->
    (forall u, In u (nb_knots c) -> u = t \/ / IZR (10 ^ 16) < Rabs (u - t)) ->
    exists c1 c2, split_nurbs c t = Ok [c1; c2] /\ nb_initialize c1 = Ok c1 /\ nb_initialize c2 = Ok c2 /\
      nb_periodic c1 = false /\ nb_periodic c2 = false /\
      Forall (fun w => 0 < w) (nb_weights c1) /\ Forall (fun w => 0 < w) (nb_weights c2) /\
      valid_bspline (nb_pts c1) (nb_knots c1) /\ valid_bspline (nb_pts c2) (nb_knots c2) /\
      lower_of (nb_pts c1) (nb_knots c1) = lower_of (nb_pts c) (nb_knots c) /\ upper_of (nb_pts c1) (nb_knots c1) = t /\
      lower_of (nb_pts c2) (nb_knots c2) = t /\ upper_of (nb_pts c2) (nb_knots c2) = upper_of (nb_pts c) (nb_knots c) /\
      (forall x, lower_of (nb_pts c) (nb_knots c) <= x < t -> nb_evaluate c1 x = nb_evaluate cn x) /\
      ((count_occ Req_EM_T (nb_knots c) t <= bspline_degree (nb_pts c) (nb_knots c))%nat -> nb_evaluate c1 t = nb_evaluate cn t) /\
      (forall x, t <= x <= upper_of (nb_pts c) (nb_knots c) -> nb_evaluate c2 x = nb_evaluate cn x).
  Proof.
    intros Hf Hw Hi Hv Ha Hs Hp Ht Hta.
    destruct (nurbs_nonper c cn Hf Hi) as (Hhn & Hpn & Hkn & Hfn).
    pose proof (nfresh_len c Hf) as L. pose proof (nfresh_knots c Hf) as K.
    pose proof (nfresh_pos c Hf Hw) as Hpos.
    destruct (valid_len (bs_pts (nb_hom c)) (nb_pts c) (nb_knots c) L) as (V1 & V2 & V3 & V4 & V5).
    destruct (bspline_split_full (S d) (nb_hom c) t) as (h1 & h2 & E & Q1 & Q2 & Q3 & Q4 & Q5 & Q6 & Q7 & Q8 & Q9 & Q10 & Q11 & Q12 & Q13 & C1 & C2);
      rewrite ?K, ?V3, ?V4, ?V5; try tauto.
    rewrite K, ?V3, ?V4, ?V5 in *.
    destruct (nset_hom_ok h1 (C1 _ posw_convex Hpos) (vb_len _ _ Q3)) as (c1 & E1 & F1 & H1 & K1 & P1 & N1 & W1).
    destruct (nset_hom_ok h2 (C2 _ posw_convex Hpos) (vb_len _ _ Q4)) as (c2 & E2 & F2 & H2 & K2 & P2 & N2 & W2).
    exists c1, c2. unfold split_nurbs. rewrite E. cbn [bind mapM]. rewrite E1. cbn [bind]. rewrite E2. cbn [bind].
    destruct (valid_len (nb_pts c1) (bs_pts h1) (bs_knots h1) N1) as (U1 & _ & U3 & U4 & _).
    destruct (valid_len (nb_pts c2) (bs_pts h2) (bs_knots h2) N2) as (T1 & _ & T3 & T4 & _).
    rewrite K1, K2, U3, U4, T3, T4.
    assert (B1 : (length (nb_pts c1) + 1 <= length (nb_knots c1))%nat) by (rewrite K1, N1; exact (vb_len _ _ Q3)).
    assert (B2 : (length (nb_pts c2) + 1 <= length (nb_knots c2))%nat) by (rewrite K2, N2; exact (vb_len _ _ Q4)).
    assert (Bn : (length (nb_pts cn) + 1 <= length (nb_knots cn))%nat) by (rewrite Hkn, Hpn; exact (vb_len _ _ Hv)).
    split; [reflexivity|]. split; [exact F1|]. split; [exact F2|]. split; [congruence|]. split; [congruence|].
    split; [exact W1|]. split; [exact W2|]. split; [now apply U1|]. split; [now apply T1|].
    split; [exact Q7|]. split; [exact Q8|]. split; [exact Q9|]. split; [exact Q10|].
    split; [|split].
    - intros x Hx. rewrite (nb_fresh_eval c1 x F1 B1), (nb_fresh_eval cn x Hfn Bn), H1, Hhn, (Q11 x Hx). reflexivity.
    - intros Hx. rewrite (nb_fresh_eval c1 t F1 B1), (nb_fresh_eval cn t Hfn Bn), H1, Hhn, (Q12 Hx). reflexivity.
    - intros x Hx. rewrite (nb_fresh_eval c2 x F2 B2), (nb_fresh_eval cn x Hfn Bn), H2, Hhn, (Q13 x Hx). reflexivity.
  Qed.

  Lemma mapM_nth {A B} (f : A -> res B) (l : list A) :
    (forall j a, nth_error l j = Some a -> exists b, f a = Ok b) ->
    exists l', mapM f l = Ok l' /\ length l' = length l /\
      forall j a b, nth_error l j = Some a -> f a = Ok b -> nth_error l' j = Some b.
  Proof.
    induction l as [|a l IH]; intros H.
    - exists []. split; [reflexivity|]. split; [reflexivity|]. intros [|j]; discriminate.
    - destruct (H 0%nat a eq_refl) as (b & Eb). destruct IH as (l' & El & Ll & Hl). { intros j x Hx. exact (H (S j) x Hx). }
      exists (b :: l'). cbn [mapM]. rewrite Eb. cbn [bind]. rewrite El. split; [reflexivity|]. split; [cbn [length]; lia|].
      intros [|j] x y Hx Hy; cbn in *; [congruence|]. eapply Hl; eassumption.
  Qed.

  Lemma nurbs_convert (c cn : nurbs R d) : nb_fresh c -> Forall (fun w => 0 < w) (nb_weights c) ->
    nb_initialize (nb_set_periodic c false) = Ok cn ->
    valid_bspline (nb_pts c) (nb_knots c) -> knots_apart (/ IZR (10 ^ 16)) (nb_knots c) ->
    nth (bspline_degree (nb_pts c) (nb_knots c)) (nb_knots c) 0 < nth (bspline_degree (nb_pts c) (nb_knots c) + 1) (nb_knots c) 0 ->
    exists segs bounds, nb_convert_to_RationalBezier c = Ok (segs, bounds) /\
      length bounds = S (length segs) /\
      nth 0 bounds 0 = lower_of (nb_pts c) (nb_knots c) /\
      nth (length segs) bounds 0 = upper_of (nb_pts c) (nb_knots c) /\
      (forall u, In u bounds <-> (In u (nb_knots c) /\ lower_of (nb_pts c) (nb_knots c) <= u <= upper_of (nb_pts c) (nb_knots c))) /\
      (forall j, (j < length segs)%nat -> nth j bounds 0 < nth (j + 1) bounds 0) /\
      forall j, (j < length segs)%nat -> exists b, nth_error segs j = Some b /\
        rb_initialize b = Ok b /\ rb_periodic b = false /\ Forall (fun w => 0 < w) (rb_weights b) /\
        length (rb_pts b) = S (bspline_degree (nb_pts c) (nb_knots c)) /\
        forall x, (nth j bounds 0 <= x < nth (j + 1) bounds 0 \/
                   (x = nth (j + 1) bounds 0 /\ (S j = length segs \/
                      (count_occ Req_EM_T (nb_knots c) x <= bspline_degree (nb_pts c) (nb_knots c))%nat))) ->
          rb_evaluate b ((x - nth j bounds 0) / (nth (j + 1) bounds 0 - nth j bounds 0)) = nb_evaluate cn x.
  Proof.
    intros Hf Hw Hi Hv Ha Hs.
    destruct (nurbs_nonper c cn Hf Hi) as (Hhn & Hpn & Hkn & Hfn).
    pose proof (nfresh_len c Hf) as L. pose proof (nfresh_knots c Hf) as K.
    pose proof (nfresh_pos c Hf Hw) as Hpos.
    destruct (valid_len (bs_pts (nb_hom c)) (nb_pts c) (nb_knots c) L) as (V1 & V2 & V3 & V4 & V5).
    destruct (bspline_convert_full (S d) (nb_hom c)) as (hs & bounds & E & Q1 & Q2 & Q3 & Q4 & Q5 & Q6);
      rewrite ?K, ?V3, ?V4, ?V5; try tauto.
    rewrite K, ?V3, ?V4, ?V5 in *.
    assert (Hseg : forall j h, nth_error hs j = Some h -> exists b, rb_set_homogeneous h = Ok b).
    { intros j h Hj. assert (Hlt : (j < length hs)%nat) by (apply nth_error_Some; congruence).
      destruct (Q6 j Hlt) as (l & El & Cl & _). rewrite Hj in El. injection El as ->.
      destruct (rset_hom_ok (mk_bezier l) (Cl _ posw_convex Hpos)) as (b & Eb & _). now exists b. }
    destruct (mapM_nth rb_set_homogeneous hs Hseg) as (segs & Es & Ls & Hn).
    exists segs, bounds. unfold nb_convert_to_RationalBezier. rewrite E. cbn [bind]. rewrite Es. cbn [bind]. rewrite Ls.
    split; [reflexivity|]. split; [exact Q1|]. split; [exact Q2|]. split; [exact Q3|]. split; [exact Q4|]. split; [exact Q5|].
    intros j Hj. destruct (Q6 j Hj) as (l & El & Cl & Ll & Hx).
    destruct (rset_hom_ok (mk_bezier l) (Cl _ posw_convex Hpos)) as (b & Eb & Fb & Hb & Pb & Nb & Wb).
    exists b. split; [exact (Hn j _ b El Eb)|]. split; [exact Fb|]. split; [exact Pb|]. split; [exact Wb|].
    split; [rewrite Nb; exact Ll|]. intros x Hxx.
    assert (Bn : (length (nb_pts cn) + 1 <= length (nb_knots cn))%nat) by (rewrite Hkn, Hpn; exact (vb_len _ _ Hv)).
    rewrite (rb_fresh_eval b _ Fb), (nb_fresh_eval cn x Hfn Bn), Hb, Hhn, (Hx x Hxx). reflexivity.
  Qed.
End NKnots.
