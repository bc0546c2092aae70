(** Evaluation and derivatives of B-splines. *)
From Coq Require Import Reals Lra Lia ZArith QArith List Permutation Bool.
From Verif Require Import Monad MonadFacts Scalar ScalarFacts Spec SpecFacts Polar ModelCurve CurveFacts ModelBezier
  BezierFacts BezierMath BezierThms BSplineMath ModelBSpline BSplineFacts.
Import ListNotations.
Local Open Scope R_scope.

(** Hypotheses on knots, on index functions. *)
Record kval (n p : Z) (U : Z -> R) : Prop := {
  kv_mono : mono U 0 (n + p);
  kv_dom : U p < U n;
}.
Definition kapart (n p : Z) (U : Z -> R) : Prop :=
  forall i j, (0 <= i <= n + p)%Z -> (0 <= j <= n + p)%Z -> U i < U j -> btol < U j - U i.
Definition kstart (p : Z) (U : Z -> R) : Prop :=
  U p < U (p + 1)%Z \/ ((1 <= p)%Z /\ forall i, (1 <= i <= p)%Z -> U i < U (i + p)%Z).

(** Ends of a run of equal knots. *)
Lemma run_end U n p : (p < n)%Z -> mono U p n -> U p < U n ->
  exists k, (p <= k < n)%Z /\ U k = U p /\ U k < U (k + 1)%Z.
Proof.
  intros Hpn Hm Hlt.
  assert (H : forall m, (exists k, (p <= k < p + Z.of_nat m)%Z /\ U k = U p /\ U k < U (k + 1)%Z) \/
    (forall i, (p <= i <= p + Z.of_nat m)%Z -> (i <= n)%Z -> U i = U p)).
  { induction m as [|m [(k & Hk)|IH]].
    - right. intros i Hi _. apply f_equal. lia.
    - left. exists k. destruct Hk as (H1 & H2). split; [lia|exact H2].
    - destruct (Z_le_gt_dec (p + Z.of_nat (S m)) n) as [Hle|Hgt].
      + destruct (Req_EM_T (U (p + Z.of_nat (S m))%Z) (U p)) as [E|E].
        * right. intros i Hi Hin. destruct (Z.eq_dec i (p + Z.of_nat (S m))) as [->|]; [exact E|apply IH; lia].
        * left. exists (p + Z.of_nat m)%Z. split; [lia|]. split; [apply IH; lia|].
          replace (p + Z.of_nat m + 1)%Z with (p + Z.of_nat (S m))%Z by lia.
          rewrite IH by lia. assert (U p <= U (p + Z.of_nat (S m))%Z) by (apply Hm; lia). lra.
      + right. intros i Hi Hin. apply IH; lia. }
  destruct (H (Z.to_nat (n - p))) as [(k & Hk & H2)|Hc].
  - exists k. split; [lia|exact H2].
  - specialize (Hc n ltac:(lia) ltac:(lia)). lra.
Qed.

Lemma run_start (U : Z -> R) p : (0 <= p)%Z ->
  exists a, (0 <= a <= p)%Z /\ (forall i, (a <= i <= p)%Z -> U i = U p) /\ (a = 0%Z \/ U (a - 1)%Z <> U p).
Proof.
  intros Hp.
  assert (H : forall m, (exists a, (p - Z.of_nat m <= a <= p)%Z /\ (0 <= a)%Z /\ (forall i, (a <= i <= p)%Z -> U i = U p) /\ (a = 0%Z \/ U (a - 1)%Z <> U p))
     \/ ((0 < p - Z.of_nat m)%Z /\ forall i, (p - Z.of_nat m <= i <= p)%Z -> U i = U p)).
  { induction m as [|m [(a & Ha1 & Ha2)|[IH1 IH2]]].
    - destruct (Z.eq_dec p 0) as [->|].
      + left. exists 0%Z. split; [lia|]. split; [lia|]. split; [|left; lia]. intros i Hi; apply f_equal; lia.
      + right. split; [lia|]. intros i Hi; apply f_equal; lia.
    - left. exists a. split; [lia|exact Ha2].
    - destruct (Req_EM_T (U (p - Z.of_nat (S m))%Z) (U p)) as [E|E].
      + assert (HE : forall i, (p - Z.of_nat (S m) <= i <= p)%Z -> U i = U p).
        { intros i Hi. destruct (Z.eq_dec i (p - Z.of_nat (S m))) as [->|]; [exact E|apply IH2; lia]. }
        destruct (Z.eq_dec (p - Z.of_nat (S m)) 0) as [E0|].
        * left. exists 0%Z. split; [lia|]. split; [lia|]. split; [|left; lia]. intros i Hi; apply HE; lia.
        * right. split; [lia|exact HE].
      + left. exists (p - Z.of_nat m)%Z. split; [lia|]. split; [lia|]. split; [exact IH2|].
        right. replace (p - Z.of_nat m - 1)%Z with (p - Z.of_nat (S m))%Z by lia. exact E. }
  destruct (H (Z.to_nat p)) as [(a & Ha)|[H1 _]]; [|lia].
  exists a. split; [lia|]. tauto.
Qed.

Section Eval.
  Context {P : Type} {V : PointOps R P} {L : PointLaws P}.

  (** Guarded and plain triangle agree in a non-empty span. *)
  Lemma evalspan_tri (n p : Z) U (q : nat) (cp : Z -> P) t k :
    mono U 0 (n + p) -> kapart n p U -> (Z.of_nat q <= p)%Z -> (p <= k < n)%Z -> U k < U (k + 1)%Z ->
    evalspan U q cp t k = tri (alU U q) cp (repeat t q) k.
  Proof.
    intros Hm Hap Hq Hk Hlt. unfold evalspan. apply tri_algd; [|rewrite repeat_length; lia].
    intros i j Hi Hj. apply Hap; [lia|lia|].
    assert (U i <= U k) by (apply Hm; lia). assert (U (k + 1)%Z <= U j) by (apply Hm; lia). lra.
  Qed.

  (** Evaluation at the start of the domain when the first span is empty. *)
  Lemma evalspan_degenerate (n p : Z) U (cp : Z -> P) k' :
    (0 <= p < n)%Z -> mono U 0 (n + p) -> kapart n p U -> kstart p U -> U p = U (p + 1)%Z ->
    (p < k' < n)%Z -> U k' = U p -> U k' < U (k' + 1)%Z ->
    evalspan U (Z.to_nat p) cp (U p) p = tri (alU U (Z.to_nat p)) cp (repeat (U p) (Z.to_nat p)) k'.
  Proof.
    intros Hpn Hm Hap Hst E01 Hk' Ek Hlt.
    destruct Hst as [Hst|[Hp1 Hst]]; [lra|].
    set (u := U p) in *.
    destruct (run_start U p ltac:(lia)) as (a & Ha & Har & Ha0). fold u in Har, Ha0.
    assert (Hrun : forall i, (a <= i <= k')%Z -> U i = u).
    { intros i Hi. destruct (Z_le_gt_dec i p); [apply Har; lia|].
      assert (U p <= U i) by (apply Hm; lia). assert (U i <= U k') by (apply Hm; lia). unfold u in *. lra. }
    assert (Ha1 : (1 <= a)%Z).
    { destruct (Z.eq_dec a 0) as [->|]; [|lia]. specialize (Hst 1%Z ltac:(lia)).
      rewrite (Hrun 1%Z), (Hrun (1 + p)%Z) in Hst by lia. lra. }
    assert (Hak : (k' - p < a)%Z).
    { destruct (Z_lt_le_dec (k' - p) a); [assumption|]. specialize (Hst a ltac:(lia)).
      rewrite (Hrun a), (Hrun (a + p)%Z) in Hst by lia. lra. }
    assert (Hprev : U (a - 1)%Z < u).
    { destruct Ha0 as [->|Hne]; [lia|]. assert (U (a - 1)%Z <= U a) by (apply Hm; lia). rewrite (Hrun a) in * by lia. lra. }
    set (p' := Z.to_nat p). set (q := Z.to_nat (p - k' + a - 1)).
    transitivity (tri (alU U p') cp (repeat u q) (a - 1)).
    - unfold evalspan. fold u. 
      replace p' with (Z.to_nat (p - a + 1) + (Z.to_nat (k' - p) + q))%nat at 2 by lia.
      rewrite repeat_app, tri_walk_left.
      2:{ intros r i Hi. unfold algd. rewrite (Hrun i) by lia.
          destruct (Rltb _ _); [|reflexivity]. unfold Rdiv. ring. }
      replace (p - Z.of_nat (Z.to_nat (p - a + 1)))%Z with (a - 1)%Z by lia.
      rewrite repeat_app, tri_stay.
      2:{ intros r Hr. rewrite repeat_length in Hr. unfold algd.
          replace (a - 1 + Z.of_nat p' + 1 - Z.of_nat r)%Z with (a + p - Z.of_nat r)%Z by lia.
          rewrite (Hrun (a + p - Z.of_nat r)%Z) by lia.
          rewrite Rltb_true.
          - apply Rdiv_self. lra.
          - rewrite <- (Hrun a) by lia. apply Hap; [lia|lia|]. rewrite (Hrun a) by lia. exact Hprev. }
      apply tri_ext; [|reflexivity]. rewrite repeat_length. intros r i x Hr Hi.
      apply algd_alU. apply Hap; [lia|lia|].
      assert (U i <= U k') by (apply Hm; lia).
      assert (U (k' + 1)%Z <= U (i + Z.of_nat p' + 1 - Z.of_nat r)%Z) by (apply Hm; lia). lra.
    - replace p' with (Z.to_nat (k' - a + 1) + q)%nat at 3 by lia.
      rewrite repeat_app, tri_walk_left.
      + f_equal. lia.
      + intros r i Hi. unfold alU. rewrite (Hrun i) by lia. unfold Rdiv. ring.
  Qed.

  (** Evaluation, after the parameter has been wrapped. *)
  Lemma bs_eval_tri c n p U (cp : Z -> P) t u :
    bsrep c n p U cp -> kval n p U -> kapart n p U -> (kstart p U \/ U p < u) ->
    bs_unwrap c t = Ok u -> U p <= u <= U n ->
    exists k, (p <= k < n)%Z /\ in_span U (U n) k u /\
      bs_evaluate c t = Ok (tri (alU U (Z.to_nat p)) cp (repeat u (Z.to_nat p)) k).
  Proof.
    intros H [Hm Hd] Hap Hst Eu Hu.
    pose proof (rep_p _ _ _ _ _ H) as Hp. pose proof (rep_pn _ _ _ _ _ H) as Hpn.
    destruct (Req_EM_T u (U p)) as [E|E].
    - assert (Hst' : kstart p U) by (destruct Hst; [assumption|lra]). subst u.
      assert (Hl := locate_span_low _ _ _ _ _ (U p) H ltac:(lra)).
      rewrite (bs_evaluate_gen _ _ _ _ _ _ _ _ H Eu Hl) by lia.
      destruct (Rle_lt_or_eq_dec (U p) (U (p + 1)%Z)) as [Hlt|Heq]; [apply Hm; lia| |].
      + exists p. split; [lia|]. split; [left; lra|]. f_equal. apply (evalspan_tri n p); auto; lia.
      + destruct (run_end U n p) as (k' & Hk' & Ek & Hlt); [lia| |exact Hd|].
        { intros i j Hi Hij Hj. apply Hm; lia. }
        assert (Hk2 : (p < k')%Z).
        { destruct (Z.eq_dec k' p) as [->|]; [lra|lia]. }
        exists k'. split; [lia|]. split; [left; lra|]. f_equal.
        apply (evalspan_degenerate n p); auto; lia.
    - destruct (Rle_lt_or_eq_dec u (U n)) as [Hlt|Heq]; [lra| |].
      + destruct (locate_span_mid _ _ _ _ _ u H ltac:(lra)) as (k & Ek & Hk & Hku).
        exists k. split; [lia|]. split; [left; lra|].
        rewrite (bs_evaluate_gen _ _ _ _ _ _ _ _ H Eu Ek) by lia. f_equal. apply (evalspan_tri n p); auto; lia || lra.
      + destruct (locate_span_high _ _ _ _ _ u H Hd Hm ltac:(lra)) as (k & Ek & Hk & Hku).
        exists k. split; [lia|]. split; [right; lra|].
        rewrite (bs_evaluate_gen _ _ _ _ _ _ _ _ H Eu Ek) by lia. f_equal. apply (evalspan_tri n p); auto; lia || lra.
  Qed.

  (** Location in a non-empty span (start excluded when its span is empty). *)
  Lemma locate_span_regular c n p U (cp : Z -> P) u :
    bsrep c n p U cp -> kval n p U -> (U p < U (p + 1)%Z \/ U p < u) -> U p <= u <= U n ->
    exists k, locate_span c u = Ok k /\ (p <= k < n)%Z /\ in_span U (U n) k u.
  Proof.
    intros H [Hm Hd] Hst Hu.
    pose proof (rep_p _ _ _ _ _ H) as Hp. pose proof (rep_pn _ _ _ _ _ H) as Hpn.
    destruct (Req_EM_T u (U p)) as [E|E].
    - subst u. exists p. split; [apply (locate_span_low _ _ _ _ _ _ H); lra|]. split; [lia|left; lra].
    - destruct (Rle_lt_or_eq_dec u (U n)) as [Hlt|Heq]; [lra| |].
      + destruct (locate_span_mid _ _ _ _ _ u H ltac:(lra)) as (k & Ek & Hk & Hku).
        exists k. split; [exact Ek|]. split; [lia|left; lra].
      + destruct (locate_span_high _ _ _ _ _ u H Hd Hm ltac:(lra)) as (k & Ek & Hk & Hku).
        exists k. split; [exact Ek|]. split; [lia|right; lra].
  Qed.

  Lemma bs_derivs_tri c n p U (cp : Z -> P) t u :
    bsrep c n p U cp -> kval n p U -> kapart n p U -> (U p < U (p + 1)%Z \/ U p < u) ->
    bs_unwrap c t = Ok u -> U p <= u <= U n ->
    exists k, (p <= k < n)%Z /\ in_span U (U n) k u /\
      bs_evaluate c t = Ok (tri (alU U (Z.to_nat p)) cp (repeat u (Z.to_nat p)) k) /\
      bs_evaluate_derivative c t = Ok (if Z.eqb p 0 then p0 else
         tri (alU U (Z.to_nat (p - 1))) (dcoef U p cp) (repeat u (Z.to_nat (p - 1))) k) /\
      bs_evaluate_2nd_derivative c t = Ok (if Z.leb p 1 then p0 else
         tri (alU U (Z.to_nat (p - 2))) (dcoef U (p - 1) (dcoef U p cp)) (repeat u (Z.to_nat (p - 2))) k).
  Proof.
    intros H Hv Hap Hst Eu Hu. destruct (locate_span_regular c n p U cp u H Hv Hst Hu) as (k & Ek & Hk & Hs).
    pose proof (rep_p _ _ _ _ _ H) as Hp. destruct Hv as [Hm Hd].
    destruct (in_span_bounds _ _ _ _ Hs) as [_ Hlt].
    exists k. split; [exact Hk|]. split; [exact Hs|].
    rewrite (bs_evaluate_gen _ _ _ _ _ _ _ _ H Eu Ek Hk).
    rewrite (bs_evaluate_derivative_gen _ _ _ _ _ _ _ _ H Eu Ek Hk).
    rewrite (bs_evaluate_2nd_derivative_gen _ _ _ _ _ _ _ _ H Eu Ek Hk).
    split; [|split]; f_equal.
    - apply (evalspan_tri n p); auto; lia.
    - destruct (Z.eqb_spec p 0); [reflexivity|]. apply (evalspan_tri n p); auto; lia.
    - destruct (Z.leb_spec p 1); [reflexivity|]. apply (evalspan_tri n p); auto; lia.
  Qed.
End Eval.

(** * Derivatives of a piece *)
Lemma dcoef_polar U (p : nat) k (c : Z -> R) (G : list R -> R) g :
  polar (S p) G -> (forall i, (k - Z.of_nat (S p) <= i <= k)%Z -> c i = G (seg U (i + 1) (S p))) ->
  (k - Z.of_nat p <= g <= k)%Z -> U g < U (g + Z.of_nat (S p))%Z ->
  dcoef U (Z.of_nat (S p)) c g
  = INR (S p) * (G (1 :: seg U (g + 1) p) - G (0 :: seg U (g + 1) p)).
Proof.
  intros HG Hc Hg Hlt. unfold dcoef. rewrite Rltb_true by lra. cbn [psub scal_point_ops ssub R_ops].
  rewrite (Hc g), (Hc (g - 1)%Z) by lia.
  replace (g - 1 + 1)%Z with g by lia.
  rewrite (seg_snoc U (g + 1) p). cbn [seg].
  replace (g + 1 + Z.of_nat p)%Z with (g + Z.of_nat (S p))%Z by lia.
  set (u1 := U (g + Z.of_nat (S p))%Z) in *.
  rewrite (po_sym _ G HG (seg U (g + 1) p ++ [u1]) (u1 :: seg U (g + 1) p)).
  - rewrite (polar_diff (S p) G HG (U g) u1) by (rewrite seg_length; reflexivity).
    rewrite (INR_IZR_INZ (S p)). cbn [pmul scal_point_ops smul R_ops]. field. lra.
  - rewrite app_length, seg_length. simpl. lia.
  - symmetry. apply Permutation_cons_append.
Qed.

Lemma seg_nil_of_le U a : seg U a 0 = [].
Proof. reflexivity. Qed.

(** The derivative triangle of a span is the derivative of the value triangle. *)
Lemma piece_deriv U lo hi (p : nat) k (c : Z -> R) t :
  mono U lo hi -> (lo <= k - Z.of_nat p)%Z -> (k + Z.of_nat p + 1 <= hi)%Z -> U k < U (k + 1)%Z ->
  derivable_pt_lim (fun x => tri (alU U (S p)) c (repeat x (S p)) k) t
    (tri (alU U p) (dcoef U (Z.of_nat (S p)) c) (repeat t p) k).
Proof.
  intros Hm Hlo Hhi Hlt.
  assert (Hs : sepk U (S p) k) by (apply (sepk_mono U lo hi); auto; lia).
  assert (Hs' : sepk U p k) by (apply (sepk_mono U lo hi); auto; lia).
  set (G := fun l => tri (alU U (S p)) c l k).
  assert (HG : polar (S p) G) by (apply tri_polar; exact Hs).
  assert (Hc : forall i, (k - Z.of_nat (S p) <= i <= k)%Z -> c i = G (seg U (i + 1) (S p))).
  { intros i Hi. unfold G. symmetry. apply tri_at_knots; assumption. }
  rewrite (tri_reproduce U p k Hs' _ (fun l => INR (S p) * (G (1 :: l) - G (0 :: l)))).
  - rewrite repeat_length, Nat.sub_diag. cbn [seg]. rewrite app_nil_r.
    apply (polar_diag_deriv p G t HG).
  - apply polar_deriv. exact HG.
  - intros i Hi. apply dcoef_polar with (k := k); auto.
    assert (U i <= U k) by (apply Hm; lia).
    assert (U (k + 1)%Z <= U (i + Z.of_nat (S p))%Z) by (apply Hm; lia). lra.
  - rewrite repeat_length. lia.
  - rewrite repeat_length. lia.
Qed.

Lemma coord_dcoef {d} i U q (cp : Z -> vec R d) g : (i < d)%nat ->
  coord d i (dcoef U q cp g) = dcoef U q (fun j => coord d i (cp j)) g.
Proof. intros Hi. unfold dcoef. rewrite coord_mul, coord_sub by assumption. reflexivity. Qed.

Lemma piece_vderiv {d} U lo hi (p : nat) k (c : Z -> vec R d) t :
  mono U lo hi -> (lo <= k - Z.of_nat p)%Z -> (k + Z.of_nat p + 1 <= hi)%Z -> U k < U (k + 1)%Z ->
  vderiv (fun x => tri (alU U (S p)) c (repeat x (S p)) k) t
    (tri (alU U p) (dcoef U (Z.of_nat (S p)) c) (repeat t p) k).
Proof.
  intros Hm Hlo Hhi Hlt i Hi. rewrite coord_tri by assumption.
  apply derivable_pt_lim_ext with (f := fun x => tri (alU U (S p)) (fun j => coord d i (c j)) (repeat x (S p)) k).
  - intros x. now rewrite coord_tri.
  - rewrite (tri_ext _ (alU U p) _ (dcoef U (Z.of_nat (S p)) (fun j => coord d i (c j)))) ; [|reflexivity|].
    + apply (piece_deriv U lo hi); auto.
    + intros j _. now apply coord_dcoef.
Qed.

(** * From lists to index functions *)
Section Lists.
  Context {P : Type} {V : PointOps R P}.

  Definition pts_at (pts : list P) (i : Z) : P := nth (Z.to_nat i) pts p0.

  Lemma valid_rep (c : bspline R P) : valid_bspline (bs_pts c) (bs_knots c) ->
    let n := Z.of_nat (length (bs_pts c)) in
    let p := Z.of_nat (bspline_degree (bs_pts c) (bs_knots c)) in
    let U := knot_of (bs_knots c) in
    bsrep c n p U (pts_at (bs_pts c)) /\ kval n p U.
  Proof.
    intros [H1 H2 H3 H4] n p U.
    assert (Hlen : Z.of_nat (length (bs_knots c)) = (n + p + 1)%Z) by (unfold n, p, bspline_degree in *; lia).
    split.
    - split.
      + apply (arr_nth (bs_pts c) p0).
      + rewrite <- Hlen. apply (arr_nth (bs_knots c) 0).
      + unfold p; lia.
      + unfold p, n; lia.
    - split.
      + intros i j Hi Hij Hj. unfold U, knot_of. apply H3. lia.
      + unfold U, knot_of, p, n. rewrite !Nat2Z.id. exact H4.
  Qed.

  Lemma apart_rep (c : bspline R P) : valid_bspline (bs_pts c) (bs_knots c) ->
    knots_apart (/ IZR (10 ^ 16)) (bs_knots c) ->
    kapart (Z.of_nat (length (bs_pts c))) (Z.of_nat (bspline_degree (bs_pts c) (bs_knots c))) (knot_of (bs_knots c)).
  Proof.
    intros [H1 H2 H3 H4] Ha i j Hi Hj Hlt. rewrite btol_val. unfold knot_of in *.
    assert (Hij : (i <= j)%Z).
    { destruct (Z_le_gt_dec i j); [assumption|].
      assert (nth (Z.to_nat j) (bs_knots c) 0 <= nth (Z.to_nat i) (bs_knots c) 0).
      { apply H3. unfold bspline_degree in *. lia. }
      lra. }
    apply Ha; [|exact Hlt]. unfold bspline_degree in *. lia.
  Qed.

  Lemma start_rep (c : bspline R P) : regular_start (bs_pts c) (bs_knots c) ->
    kstart (Z.of_nat (bspline_degree (bs_pts c) (bs_knots c))) (knot_of (bs_knots c)).
  Proof.
    intros [H|[H1 H2]]; [left|right; split; [lia|]].
    - unfold knot_of. rewrite Nat2Z.id.
      replace (Z.to_nat _) with (bspline_degree (bs_pts c) (bs_knots c) + 1)%nat by lia. exact H.
    - intros i Hi. unfold knot_of. specialize (H2 (Z.to_nat i) ltac:(lia)).
      replace (Z.to_nat (i + _)) with (Z.to_nat i + bspline_degree (bs_pts c) (bs_knots c))%nat by lia. exact H2.
  Qed.
End Lists.

(** The triangle of the located span is the Cox-de Boor sum. *)
Lemma tri_bspline_curve {d} (c : bspline R (vec R d)) k u :
  valid_bspline (bs_pts c) (bs_knots c) ->
  let n := Z.of_nat (length (bs_pts c)) in
  let p := bspline_degree (bs_pts c) (bs_knots c) in
  let U := knot_of (bs_knots c) in
  (Z.of_nat p <= k < n)%Z -> in_span U (U n) k u ->
  tri (alU U p) (pts_at (bs_pts c)) (repeat u p) k = bspline_curve (bs_pts c) (bs_knots c) u.
Proof.
  intros Hv n p U Hk Hs. destruct (valid_rep c Hv) as [Hr [Hm Hd]]. fold n p U in Hr, Hm, Hd.
  unfold bspline_curve. fold p U n. apply vec_ext. intros i Hi.
  rewrite coord_tri, coord_psum by assumption.
  rewrite (tri_cox U p (length (bs_pts c)) (U n) u k) by assumption.
  apply rsum_ext. intros j Hj. rewrite coord_mul by assumption. unfold pts_at. now rewrite Nat2Z.id.
Qed.
