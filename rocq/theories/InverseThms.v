(** Range of the overrides of approximate_inverse_evaluate (BSplineBase.h, BezierPatch.h). *)
From Coq Require Import Reals Lra Lia ZArith List Bool.
From Verif Require Import Monad MonadFacts LoopFacts Scalar ScalarFacts Spec SpecFacts SpecGeom ModelCurve ModelBezier ModelBSpline
  ModelPatchBase ModelPatch ModelInverse CurveFacts BSplineMath BSplineFacts BSplineThms BSplineThms2 CurveThms.
Import ListNotations.
Local Open Scope R_scope.

Lemma get_Ok_inv {A} (l : list A) i a : get l i = Ok a -> (0 <= i < zlen l)%Z.
Proof.
  unfold get, zlen. destruct (Z.ltb_spec i 0); [discriminate|]. destruct (nth_error l (Z.to_nat i)) eqn:E; [|discriminate].
  intros _. assert (nth_error l (Z.to_nat i) <> None) by congruence. apply nth_error_Some in H0. lia.
Qed.

Section Walk.
  Context {d : nat} (c : curve_ops R (vec R d)) (p : vec R d) (lower upper : R).
  Hypothesis near : forall x q, lower <= x <= upper -> c_eval c x = Ok q -> edist p q ^ 2 < snummax.

  Definition good (b : R * R * R) : Prop := lower <= fst (fst b) <= upper /\ 0 < snd (fst b).

  Lemma span_samples_good n lo hi b r : (0 < n)%Z -> lower <= lo -> lo < hi -> hi <= upper -> good b \/ b = (s0, s0, snummax) ->
    span_samples c p n lo hi b = Ok r -> good r.
  Proof.
    intros Hn H1 H2 H3 Hb E. unfold span_samples in E. apply bind_inv in E. destruct E as (delta & Ed & E).
    cbn [sofZ ssub R_ops] in Ed. assert (H0 : 0 < IZR n) by (now apply IZR_lt). rewrite ddiv_R in Ed by lra.
    assert (Hd : 0 < delta) by (injection Ed as <-; apply Rdiv_lt_0_compat; lra). clear Ed.
    assert (Hs : forall i, (0 <= i <= n)%Z -> lower <= lo + IZR i / IZR n * (hi - lo) <= upper).
    { intros i Hi. assert (0 <= IZR i) by (apply IZR_le; lia). assert (IZR i <= IZR n) by (apply IZR_le; lia).
      assert (0 <= IZR i / IZR n) by (apply Rdiv_le_0_compat; assumption).
      assert (IZR i / IZR n <= 1) by (apply (Rmult_le_reg_r (IZR n)); [assumption|]; unfold Rdiv; rewrite Rmult_assoc, Rinv_l; lra).
      nra. }
    assert (Step : forall j a y, (0 <= j <= n)%Z ->
      (let '(min_t, min_delta, min_dist) := a in
       do r0 <- ddiv (sofZ j) (sofZ n);
       do q <- c_eval c (sadd lo (smul r0 (ssub hi lo)));
       (if slt (sqnorm (psub p q)) min_dist then Ok (sadd lo (smul r0 (ssub hi lo)), delta, sqnorm (psub p q)) else Ok a)) = Ok y ->
      good a \/ a = (s0, s0, snummax) -> good y).
    { intros j [[mt md] mx] y Hj Ey Ha. apply bind_inv in Ey. destruct Ey as (x & Ex & Ey). apply bind_inv in Ey. destruct Ey as (q & Eq & Ey).
      cbn [sofZ R_ops sadd smul ssub slt] in *. rewrite ddiv_R in Ex by lra. injection Ex as <-. specialize (Hs j Hj).
      rewrite sqnorm_edist in Ey. destruct (Rltb_spec (edist p q ^ 2) mx) as [Hlt|Hge].
      - injection Ey as <-. split; cbn [fst snd]; assumption.
      - destruct Ha as [Ha|Ha]; [injection Ey as <-; exact Ha|]. apply (f_equal snd) in Ha. cbn [snd] in Ha. exfalso.
        specialize (near _ _ Hs Eq). rewrite Ha in Hge. lra. }
    unfold for_up in E. replace (Z.to_nat (n + 1 - 0)) with (S (Z.to_nat n)) in E by lia.
    cbn [for_nat] in E. apply bind_inv in E. destruct E as (b1 & E1 & E). apply Step in E1; [|lia|exact Hb].
    refine (for_nat_post good _ _ _ b1 _ E1 _ E). intros i a a' Hi Ha Ea. apply Step in Ea; [exact Ea|lia|left; exact Ha].
  Qed.

  (** Not periodic. *)
  Lemma span_walk_open knots N U deg n period : arr knots N U -> mono U 0 (N - 1) -> (0 < n)%Z -> upper <= U (N - 1)%Z ->
    forall fuel cl sp best r, (0 <= sp)%Z -> lower <= cl <= upper -> ((sp + 1 < N)%Z -> cl <= U (sp + 1)%Z) ->
    (good best \/ (best = (s0, s0, snummax) /\ cl = lower /\ cl < upper /\ U (Z.min sp (N - 1)) <= lower)) ->
    span_walk fuel c p knots deg n false period upper (cl, sp, 0%Z, best) = Ok r -> good r.
  Proof.
    intros Ha Hm Hn Hu. induction fuel as [|fuel IH]; intros cl sp best r Hsp Hcl Hk Hb E; [discriminate|]. cbn [span_walk] in E.
    destruct (Rltb_spec cl upper) as [Hlt|Hge].
    2:{ cbn [slt R_ops] in E. rewrite Rltb_false in E by lra. injection E as <-. destruct Hb as [Hb|Hb]; [exact Hb|lra]. }
    cbn [slt R_ops] in E. rewrite Rltb_true in E by exact Hlt. apply bind_inv in E. destruct E as (x & Ex & E).
    unfold span_step in Ex. rewrite (arr_len _ _ _ Ha) in Ex. cbn [negb andb] in Ex.
    destruct (Z.leb_spec N (sp + 1)) as [HN|HN].
    - injection Ex as <-. injection E as <-. destruct Hb as [Hb|(-> & -> & _ & Hb)]; [exact Hb|]. exfalso.
      rewrite Z.min_r in Hb by lia. lra.
    - rewrite (arr_get _ _ _ _ Ha) in Ex by lia. cbv zeta in Ex. rewrite bind_Ok in Ex. cbn [sofZ sadd smul R_ops slt] in Ex. rewrite smin_R in Ex.
      specialize (Hk HN). replace (U (sp + 1)%Z + 0 * period) with (U (sp + 1)%Z) in Ex by ring. set (cu := Rmin upper (U (sp + 1)%Z)) in *.
      assert (Hcu : cl <= cu <= upper /\ cu <= U (sp + 1)%Z) by (unfold cu, Rmin; destruct (Rle_dec upper (U (sp + 1)%Z)); lra).
      assert (Hnext : ((sp + 1 + 1 < N)%Z -> cu <= U (sp + 1 + 1)%Z)) by (intros HH; specialize (Hm (sp + 1)%Z (sp + 1 + 1)%Z ltac:(lia) ltac:(lia) ltac:(lia)); lra).
      apply bind_inv in Ex. destruct Ex as (b1 & Eb & Ex). injection Ex as <-.
      destruct (Rltb_spec cl cu) as [Hc|Hc].
      + apply span_samples_good in Eb; [|first [lia|lra|idtac]..].
        * apply IH in E; [exact E|lia|lra|exact Hnext|left; exact Eb].
        * destruct Hb as [Hb|[Hb _]]; [left; exact Hb|right; exact Hb].
      + injection Eb as <-. apply IH in E; [exact E|lia|lra|exact Hnext|].
        destruct Hb as [Hb|(Hb1 & Hb2 & Hb3 & Hb4)]; [left; exact Hb|right]. split; [exact Hb1|]. split; [lra|]. split; [lra|].
        rewrite Z.min_l by lia. unfold cu, Rmin in Hc, Hcu. destruct (Rle_dec upper (U (sp + 1)%Z)); lra.
  Qed.

  (** Periodic. *)
  Lemma span_walk_periodic knots N U deg n period : arr knots N U -> (0 < n)%Z -> (0 <= deg)%Z -> 0 < period ->
    forall fuel cl sp pc best r, (0 <= sp)%Z -> lower <= cl <= upper -> cl <= U (deg + 1)%Z + IZR (pc + 1) * period ->
    (good best \/ (best = (s0, s0, snummax) /\ cl < upper /\ cl < U (deg + 1)%Z + IZR (pc + 1) * period)) ->
    span_walk fuel c p knots deg n true period upper (cl, sp, pc, best) = Ok r -> good r.
  Proof.
    intros Ha Hn Hd Hper. induction fuel as [|fuel IH]; intros cl sp pc best r Hsp Hcl Hk Hb E; [discriminate|]. cbn [span_walk] in E.
    destruct (Rltb_spec cl upper) as [Hlt|Hge].
    2:{ cbn [slt R_ops] in E. rewrite Rltb_false in E by lra. injection E as <-. destruct Hb as [Hb|Hb]; [exact Hb|lra]. }
    cbn [slt R_ops] in E. rewrite Rltb_true in E by exact Hlt. apply bind_inv in E. destruct E as (x & Ex & E).
    unfold span_step in Ex. rewrite (arr_len _ _ _ Ha) in Ex. cbn [negb andb] in Ex.
    destruct (Z.ltb_spec (sp + 1) N) as [HN|HN]; cycle 1.
    { exfalso. apply bind_inv in Ex. destruct Ex as (k & Ek & _). apply get_Ok_inv in Ek. rewrite (arr_len _ _ _ Ha) in Ek. lia. }
    apply bind_inv in Ex. destruct Ex as (k & Ek & Ex).
    assert (Hdn : (deg + 1 < N)%Z) by (apply get_Ok_inv in Ek; rewrite (arr_len _ _ _ Ha) in Ek; lia).
    rewrite (arr_get _ _ _ _ Ha) in Ek by lia. injection Ek as <-. cbn [sofZ sadd smul R_ops slt] in Ex. rewrite smin_R in Ex.
    set (top := U (deg + 1)%Z + IZR (pc + 1) * period) in *. set (cu := Rmin upper top) in *.
    assert (Hcu : cl <= cu <= upper /\ cu <= top) by (unfold cu, Rmin; destruct (Rle_dec upper top); lra).
    assert (Htop : top < U (deg + 1)%Z + IZR (pc + 1 + 1) * period) by (unfold top; rewrite !plus_IZR; lra).
    apply bind_inv in Ex. destruct Ex as (b1 & Eb & Ex). injection Ex as <-.
    destruct (Rltb_spec cl cu) as [Hc|Hc].
    - apply span_samples_good in Eb; [|first [lia|lra|idtac]..].
      + apply IH in E; [exact E|lia|lra|lra|left; exact Eb].
      + destruct Hb as [Hb|[Hb _]]; [left; exact Hb|right; exact Hb].
    - injection Eb as <-. apply IH in E; [exact E|lia|lra|lra|].
      destruct Hb as [Hb|(Hb1 & Hb2 & Hb3)]; [left; exact Hb|]. exfalso. unfold cu, Rmin in Hc. destruct (Rle_dec upper top); lra.
  Qed.
End Walk.

Lemma clamp3 lower upper x dlt : lower < upper -> lower <= x <= upper -> 0 < dlt ->
  lower <= smin upper (smax lower (x - dlt)) /\ smin upper (smax lower (x - dlt)) < smin upper (smax lower (x + dlt)) /\
  smin upper (smax lower (x + dlt)) <= upper.
Proof.
  intros H1 H2 H3. rewrite !smin_R, !smax_R. unfold Rmin, Rmax.
  destruct (Rle_dec lower (x - dlt)); destruct (Rle_dec lower (x + dlt)); repeat destruct (Rle_dec upper _); lra.
Qed.

Lemma bspline_inverse_range d (b : bspline R (vec R d)) (ops : curve_ops R (vec R d)) p level :
  valid_bspline (bs_pts b) (bs_knots b) ->
  forall lower upper r, lower < upper ->
  (bs_periodic b = false -> lower_of (bs_pts b) (bs_knots b) <= lower /\ upper <= upper_of (bs_pts b) (bs_knots b)) ->
  (forall x q, lower <= x <= upper -> c_eval ops x = Ok q -> edist p q ^ 2 < snummax) ->
  bs_approx_inverse b ops p lower upper level = Ok r -> lower <= r <= upper.
Proof.
  intros Hv. pose proof (valid_rep b Hv) as VR. cbv zeta in VR. destruct VR as [Hr Hkv]. pose proof Hkv as [Hm Hd].
  set (n := Z.of_nat (length (bs_pts b))) in *. set (q := Z.of_nat (bspline_degree (bs_pts b) (bs_knots b))) in *. set (U := knot_of (bs_knots b)) in *.
  pose proof (rep_p _ _ _ _ _ Hr) as Hp. pose proof (rep_pn _ _ _ _ _ Hr) as Hpn.
  assert (El : lower_of (bs_pts b) (bs_knots b) = U q) by (unfold lower_of, U, knot_of, q; rewrite Nat2Z.id; reflexivity).
  assert (Eu : upper_of (bs_pts b) (bs_knots b) = U n) by (unfold upper_of, U, knot_of, n; rewrite Nat2Z.id; reflexivity).
  rewrite El, Eu. induction level as [|level IH]; intros lower upper r Hlu Hdom Hc E; cbn [bs_approx_inverse] in E;
  (cbn [sle R_ops] in E; rewrite Rleb_true in E by lra; cbn [assert_] in E; rewrite bind_Ok in E;
   apply bind_inv in E; destruct E as (_ & _ & E); apply bind_inv in E; destruct E as (sp & Esp & E);
   rewrite (rep_lower _ _ _ _ _ Hr), (rep_upper _ _ _ _ _ Hr), !bind_Ok in E; cbv zeta in E;
   apply bind_inv in E; destruct E as ([pc fuel] & Epc & E); apply bind_inv in E; destruct E as ([[mt md] mx] & Ew & E);
   rewrite (rep_degree _ _ _ _ _ Hr) in Ew;
   assert (Hg : good lower upper (mt, md, mx));
   [destruct (bs_periodic b) eqn:Eper|destruct Hg as [Hg1 Hg2]; cbn [fst snd] in Hg1, Hg2]).
  1,4: (clear E; apply bind_inv in Epc; destruct Epc as (x & Ex & Epc); apply bind_inv in Epc; destruct Epc as (w & Ew' & Epc);
    apply bind_inv in Epc; destruct Epc as (? & A1 & Epc); apply bind_inv in Epc; destruct Epc as (? & A2 & Epc);
    assert (Hpc : sfloor x = pc) by (apply (f_equal (fun y : res (Z * nat) => match y with Ok z => fst z | _ => 0%Z end)) in Epc; exact Epc);
    clear Epc; subst pc; cbn [sle slt ssub sadd smul sofZ R_ops] in A1, A2, Ew;
    destruct (Rltb_spec lower ((U n - U q) * IZR (sfloor x + 1) + U q)) as [A2'|]; [|discriminate];
    destruct (locate_span_total _ _ _ _ _ lower Hr Hkv) as (k & Ek & Hk); rewrite Ek in Esp; injection Esp as <-;
    assert (Hq : U q <= U (q + 1)%Z) by (apply Hm; lia);
    refine (span_walk_periodic ops p lower upper Hc _ _ U q (2 * (q + 1))%Z (U n - U q) (rep_knots _ _ _ _ _ Hr) _ _ _ _ _ _ _ _ _ _ _ _ _ Ew);
    [lia|lia|lra|lia|lra|lra|right; split; [reflexivity|lra]]).
  1,3: (clear E; injection Epc as <- <-; specialize (Hdom eq_refl); cbn [ssub R_ops] in Ew;
    assert (Hk : (q <= sp < n)%Z /\ U sp <= lower <= U (sp + 1)%Z);
    [destruct (Rle_dec lower (U q)) as [Hc1|Hc1];
      [rewrite (locate_span_low _ _ _ _ _ _ Hr Hc1) in Esp; injection Esp as <-;
       assert (U q <= U (q + 1)%Z) by (apply Hm; lia); split; [lia|lra]
      |destruct (locate_span_mid _ _ _ _ _ lower Hr ltac:(lra)) as (k & Ek & Hk & Hk2); rewrite Ek in Esp; injection Esp as <-; split; [lia|lra]]
    |destruct Hk as [Hk1 Hk2];
     assert (HUn : U n <= U (n + q + 1 - 1)%Z) by (apply Hm; lia);
     refine (span_walk_open ops p lower upper Hc _ _ U q (2 * (q + 1))%Z (U n - U q) (rep_knots _ _ _ _ _ Hr) _ _ _ _ _ _ _ _ _ _ _ _ Ew);
     [intros i j Hi Hij Hj; apply Hm; lia|lia|lra|lia|lra|intros; lra|right; split; [reflexivity|]; split; [reflexivity|]; split; [lra|]; rewrite Z.min_l by lia; lra]]).
  - eapply newton_range; eauto.
  - cbn [ssub sadd R_ops] in E. destruct (clamp3 lower upper mt md Hlu Hg1 Hg2) as (K1 & K2 & K3).
    apply IH in E; [lra|exact K2| |].
    + intros Hper. specialize (Hdom Hper). lra.
    + intros x y Hx. apply Hc. lra.
Qed.

(** * BezierPatch *)
Lemma remap_range (a b x : R) : a <= b -> 0 <= x <= 1 -> a <= (b - a) * x + a <= b.
Proof. intros. nra. Qed.
Lemma clamp01 (x : R) : 0 <= smin (smax x 0) 1 <= 1.
Proof. rewrite smin_R, smax_R. unfold Rmin, Rmax. destruct (Rle_dec x 0); destruct (Rle_dec _ 1); lra. Qed.
Lemma clamp01_mono (x y : R) : x <= y -> smin (smax x 0) 1 <= smin (smax y 0) 1.
Proof. intros. rewrite !smin_R, !smax_R. unfold Rmin, Rmax. destruct (Rle_dec x 0), (Rle_dec y 0); repeat destruct (Rle_dec _ 1); lra. Qed.

Lemma bp_subpatch_le {d} (s a : bpatch (vec R d)) u0 u1 v0 v1 : bp_subpatch s u0 u1 v0 v1 = Ok a -> u0 <= u1 /\ v0 <= v1.
Proof.
  unfold bp_subpatch. cbn [slt R_ops]. destruct (Rltb_spec u1 u0); [discriminate|].
  destruct (_ || _); [discriminate|]. destruct (Rltb_spec v1 v0); [discriminate|]. intros _. lra.
Qed.

Lemma bp_preimage_mono {d} (a : bpatch (vec R d)) i j i' j' lo hi : (i <= i')%Z -> (j <= j')%Z ->
  bp_preimage a i j = Ok lo -> bp_preimage a i' j' = Ok hi -> fst lo <= fst hi /\ snd lo <= snd hi.
Proof.
  intros Hi Hj E1 E2. unfold bp_preimage, checked_degree in *.
  destruct (Z.leb_spec 0 (bp_degu a)) as [Hu|]; [|discriminate]. destruct (Z.leb_spec 0 (bp_degv a)) as [Hw|]; [|discriminate]. cbn [assert_ bind] in *.
  apply bind_inv in E1. destruct E1 as (x & Ex & E1). apply bind_inv in E1. destruct E1 as (y & Ey & E1). injection E1 as <-.
  apply bind_inv in E2. destruct E2 as (x' & Ex' & E2). apply bind_inv in E2. destruct E2 as (y' & Ey' & E2). injection E2 as <-.
  cbn [sofZ R_ops fst snd] in *.
  assert (K : forall m k k' z z', (0 <= m)%Z -> (k <= k')%Z -> ddiv (IZR k) (IZR m) = Ok z -> ddiv (IZR k') (IZR m) = Ok z' -> z <= z').
  { intros m k k' z z' Hm Hk E E'. destruct (Z.eq_dec m 0) as [->|Hne].
    - unfold ddiv in E. cbn [seq_ s0 R_ops] in E. rewrite Reqb_true in E by reflexivity. discriminate.
    - assert (0 < IZR m) by (apply IZR_lt; lia). rewrite ddiv_R in E by lra. rewrite ddiv_R in E' by lra. injection E as <-. injection E' as <-.
      unfold Rdiv. apply Rmult_le_compat_r; [left; now apply Rinv_0_lt_compat|now apply IZR_le]. }
  split; [exact (K _ _ _ _ _ Hu Hi Ex Ex')|exact (K _ _ _ _ _ Hw Hj Ey Ey')].
Qed.

Lemma bpatch_inverse_range d p nsu nsv level : (0 < nsu)%Z -> (0 < nsv)%Z -> forall (s : bpatch (vec R d)) a b c e r, a <= b -> c <= e ->
  bp_approx_inverse s p nsu nsv a b c e level = Ok r -> (a <= fst r <= b) /\ (c <= snd r <= e).
Proof.
  intros Hnu Hnv. induction level as [|level IH]; intros s a b c e r Hab Hce E; cbn [bp_approx_inverse] in E;
  (destruct (bp_peru s || bp_perv s); [exact (patch_approx_range d _ p nsu nsv a b c e 3 r Hnu Hnv Hab Hce E)|];
   apply bind_inv in E; destruct E as (du & _ & E); apply bind_inv in E; destruct E as (low & _ & E);
   destruct low; [exact (patch_approx_range d _ p nsu nsv a b c e 3 r Hnu Hnv Hab Hce E)|];
   apply bind_inv in E; destruct E as (nu & _ & E); apply bind_inv in E; destruct E as (few & _ & E);
   destruct few; [exact (patch_approx_range d _ p nsu nsv a b c e 3 r Hnu Hnv Hab Hce E)|];
   apply bind_inv in E; destruct E as (nv & _ & E); cbv zeta in E; apply bind_inv in E; destruct E as (s' & Es & E);
   apply bp_subpatch_le in Es; rewrite !smax_R, !smin_R in Es; rewrite !smax_R, !smin_R in E; cbn [s0 s1 R_ops] in Es, E;
   set (u0 := Rmax a 0) in *; set (u1 := Rmin b 1) in *; set (v0 := Rmax c 0) in *; set (v1 := Rmin e 1) in *;
   assert (Hr : a <= u0 /\ u1 <= b /\ c <= v0 /\ v1 <= e) by
     (unfold u0, u1, v0, v1, Rmax, Rmin; destruct (Rle_dec a 0), (Rle_dec b 1), (Rle_dec c 0), (Rle_dec e 1); lra);
   apply bind_inv in E; destruct E as (anu & _ & E); apply bind_inv in E; destruct E as (anv & _ & E);
   apply bind_inv in E; destruct E as ([i j] & _ & E)).
  - apply bind_inv in E. destruct E as (uv & _ & E). injection E as <-. unfold remap_2d, clamp_2d. cbn [fst snd smul sadd ssub s0 s1 R_ops].
    pose proof (remap_range u0 u1 _ (proj1 Es) (clamp01 (fst uv))). pose proof (remap_range v0 v1 _ (proj2 Es) (clamp01 (snd uv))). lra.
  - apply bind_inv in E. destruct E as (lo & El & E). apply bind_inv in E. destruct E as (hi & Eh & E). cbv zeta in E.
    apply bind_inv in E. destruct E as (uv & Euv & E). injection E as <-.
    destruct (fun Hi Hj => bp_preimage_mono s' _ _ _ _ lo hi Hi Hj El Eh) as [M1 M2];
      [destruct (Z.ltb_spec 0 i), (Z.ltb_spec i (nu - 1)%Z); lia|destruct (Z.ltb_spec 0 j), (Z.ltb_spec j (nv - 1)%Z); lia|].
    unfold clamp_2d in Euv. cbn [fst snd s0 s1 R_ops] in Euv.
    apply IH in Euv; [|now apply clamp01_mono..].
    pose proof (clamp01 (fst lo)). pose proof (clamp01 (fst hi)). pose proof (clamp01 (snd lo)). pose proof (clamp01 (snd hi)).
    unfold remap_2d. cbn [fst snd smul sadd ssub R_ops].
    pose proof (remap_range u0 u1 (fst uv) (proj1 Es) ltac:(lra)). pose proof (remap_range v0 v1 (snd uv) (proj2 Es) ltac:(lra)). lra.
Qed.

(** * When the Newton iteration gives up, its result is not farther away than its start. *)
Lemma init_eq (u v a b pd m : R) (puv uv : R * R) : (u, v, puv, pd) = (a, b, uv, m) -> u = a /\ v = b /\ puv = uv.
Proof. intros H. injection H as -> -> -> _. auto. Qed.

Lemma patch_newton_not_worse {d} (s : patch_ops R (vec R d)) p uv n tol a b c e r :
  patch_newton_raphson s p uv n tol a b c e = Ok (r, false) ->
  exists e0 er, s_eval s (fst uv) (snd uv) = Ok e0 /\ s_eval s (fst r) (snd r) = Ok er /\ edist er p <= edist e0 p.
Proof.
  intros E. unfold patch_newton_raphson in E. apply bind_inv in E. destruct E as (x & E & Ex). unfold forb_up in E.
  set (Q := fun y : (R * R) * bool => snd y = false ->
    exists e0 er, s_eval s (fst uv) (snd uv) = Ok e0 /\ s_eval s (fst (fst y)) (snd (fst y)) = Ok er /\ edist er p <= edist e0 p).
  set (K := fun (w : R * R) (pd : R) => exists e0 ep, s_eval s (fst uv) (snd uv) = Ok e0 /\ s_eval s (fst w) (snd w) = Ok ep /\ pd = edist ep p /\ pd <= edist e0 p).
  eapply (forb_nat_post (fun st : R * R * (R * R) * R => st = (fst uv, snd uv, uv, snummax) \/ K (snd (fst st)) (snd st)) Q) in E.
  - destruct x as [[[[u v] puv] pd]|y]; [discriminate|]. injection Ex as ->. exact (E eq_refl).
  - left. reflexivity.
  - intros _ [[[u v] puv] pd] y H Ey. cbn [fst snd] in H. unfold patch_newton_step in Ey.
    apply bind_inv in Ey. destruct Ey as (q & Eq & Ey). rewrite pnorm_edist in Ey.
    destruct (_ || _); [injection Ey as <-; intros HH; discriminate|]. cbn [slt R_ops] in Ey.
    destruct (Rltb_spec pd (edist q p)) as [Hlt|Hge].
    + injection Ey as <-. intros _. cbn [fst]. destruct H as [H|(e0 & ep & H1 & H2 & H3 & H4)].
      * apply init_eq in H. destruct H as (-> & -> & ->). exists q, q. split; [exact Eq|]. split; [exact Eq|]. lra.
      * exists e0, ep. split; [exact H1|]. split; [exact H2|]. lra.
    + assert (HK : K (u, v) (edist q p)).
      { destruct H as [H|(e0 & ep & H1 & H2 & H3 & H4)].
        - apply init_eq in H. destruct H as (-> & -> & ->). exists q, q. cbn [fst snd]. split; [exact Eq|]. split; [exact Eq|]. split; [reflexivity|lra].
        - exists e0, q. cbn [fst snd]. split; [exact H1|]. split; [exact Eq|]. split; [reflexivity|lra]. }
      apply bind_inv in Ey. destruct Ey as (su & _ & Ey). apply bind_inv in Ey. destruct Ey as (sv & _ & Ey).
      destruct (_ && _); [injection Ey as <-; intros HH; discriminate|].
      do 3 (apply bind_inv in Ey; destruct Ey as (? & _ & Ey)).
      destruct (sle _ s0).
      * injection Ey as <-. intros _. cbn [fst snd]. destruct HK as (e0 & ep & H1 & H2 & H3 & H4). exists e0, ep. split; [exact H1|]. split; [exact H2|]. lra.
      * apply bind_inv in Ey. destruct Ey as (d0 & _ & Ey). apply bind_inv in Ey. destruct Ey as (d1 & _ & Ey). injection Ey as <-.
        right. exact HK.
Qed.

Lemma patch_guess_not_worse d (s : patch_ops R (vec R d)) p u v a b c e n tol r : a <= u <= b -> c <= v <= e ->
  patch_inverse_guess s p u v a b c e n tol = Ok (r, false) ->
  exists e0 er, s_eval s u v = Ok e0 /\ s_eval s (fst r) (snd r) = Ok er /\ edist er p <= edist e0 p.
Proof.
  intros Hu Hv E. unfold patch_inverse_guess in E. rewrite !smax_R, !smin_R in E. rewrite (Rmin_right b u), (Rmin_right e v), (Rmax_right a u), (Rmax_right c v) in E by lra.
  apply bind_inv in E. destruct E as ([x g] & E & Ex). apply bind_inv in Ex. destruct Ex as (_ & _ & Ex). apply bind_inv in Ex. destruct Ex as (_ & _ & Ex).
  injection Ex as -> ->. apply patch_newton_not_worse in E. exact E.
Qed.

Lemma patch_guess_newton_in d (s : patch_ops R (vec R d)) p u v a b c e n tol r : a <= u <= b -> c <= v <= e ->
  patch_newton_raphson s p (u, v) n tol a b c e = Ok r -> patch_inverse_guess s p u v a b c e n tol = Ok r.
Proof.
  intros Hu Hv E. apply patch_guess_newton; [lra|lra|]. rewrite !smax_R, !smin_R.
  rewrite (Rmin_right b u), (Rmin_right e v), (Rmax_right a u), (Rmax_right c v) by lra. exact E.
Qed.
