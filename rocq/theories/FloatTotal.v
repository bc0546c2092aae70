(** Evaluation at arbitrary bit patterns; the degree-specialised Bezier classes in any arithmetic. *)
From Coq Require Import Reals Lra Lia ZArith QArith List Bool.
From Flocq Require Import Core IEEE754.BinarySingleNaN.
From Verif Require Import Monad MonadFacts Scalar ScalarFacts Spec SpecFacts ModelCurve ModelBezier BezierThms
  ModelBSpline BSplineFacts BSplineThms BSplineThms2 Transfer SpecFloat ModelFloat FloatFacts FloatThms FloatThms2 FloatThms3
  FloatCases FloatRuns.
Import ListNotations.
Local Open Scope R_scope.

Section Special.
  Context {T P : Type} {SO : ScalarOps T} {V : PointOps T P}.
  Variable Hcomm : forall a b : P, padd a b = padd b a.

  Notation L a b := (fun t => padd (pmul (ssub s1 t) a) (pmul t b)).
  Notation M a b := (fun t => padd (pmul t b) (pmul (ssub s1 t) a)).
  Lemma LM a b t : L a b t = M a b t. Proof. apply Hcomm. Qed.

  Lemma bz1_generic (pts : list P) t : length pts = 2%nat -> bz1_evaluate (mk_bezier pts) t = bz_evaluate (mk_bezier pts) t.
  Proof.
    intros Hn. rewrite (bz_evaluate_gtri pts t 1 Hn). destruct pts as [|a [|b [|e pts]]]; try discriminate.
    transitivity (Ok (L a b t)); [reflexivity|]. rewrite LM. reflexivity.
  Qed.
  Lemma bz2_generic (pts : list P) t : length pts = 3%nat -> bz2_evaluate (mk_bezier pts) t = bz_evaluate (mk_bezier pts) t.
  Proof.
    intros Hn. rewrite (bz_evaluate_gtri pts t 2 Hn). destruct pts as [|a [|b [|e [|f pts]]]]; try discriminate.
    transitivity (Ok (L (L a b t) (L b e t) t)); [reflexivity|]. rewrite !LM. reflexivity.
  Qed.
  Lemma bz3_generic (pts : list P) t : length pts = 4%nat -> bz3_evaluate (mk_bezier pts) t = bz_evaluate (mk_bezier pts) t.
  Proof.
    intros Hn. rewrite (bz_evaluate_gtri pts t 3 Hn). destruct pts as [|a [|b [|e [|f [|g pts]]]]]; try discriminate.
    transitivity (Ok (L (L (L a b t) (L b e t) t) (L (L b e t) (L e f t) t) t)); [reflexivity|]. rewrite !LM. reflexivity.
  Qed.
End Special.

(** ** Skipping equal knots stays below the last span *)
Lemma bypass_after_below (l : list R) N U i n : (arr l N U -> 0 <= i < n -> n < N -> U (n - 1) <> U n ->
  exists j, bypass_after l i = Ok j /\ i <= j < n)%Z.
Proof.
  intros Hl Hi Hn Hne. unfold bypass_after. pose proof (arr_len _ _ _ Hl) as HN. rewrite HN.
  destruct (while_inv (fun j => i <= j < n)%Z (fun j => Z.to_nat (N - j))
    (S (length l))
    (fun i => if (i + 1 <? N)%Z then do a <- get l i; do b <- get l (i + 1)%Z; Ok (seq_ a b) else Ok false)
    (fun i => Ok (i + 1)%Z) i) as (j & E & Hj & _).
  - lia.
  - unfold zlen in HN. lia.
  - intros j Hj. destruct (Z.ltb_spec (j + 1) N); [|eauto].
    rewrite !(arr_get _ _ _ _ Hl) by lia. rewrite !bind_Ok. eauto.
  - intros j Hj Hc. destruct (Z.ltb_spec (j + 1) N); [|discriminate].
    rewrite !(arr_get _ _ _ _ Hl) in Hc by lia. rewrite !bind_Ok in Hc. cbn [seq_ R_ops] in Hc.
    exists (j + 1)%Z. split; [reflexivity|]. split; [|lia].
    destruct (Z.eq_dec j (n - 1)) as [->|]; [|lia]. exfalso. apply Hne.
    replace (n - 1 + 1)%Z with n in Hc by lia.
    destruct (Reqb_spec (U (n - 1)%Z) (U n)) as [E|E]; [exact E|discriminate].
  - eauto.
Qed.

Section Float.
  Context (prec emax : Z) {Hprec : Prec_gt_0 prec} {Hmax : Prec_lt_emax prec emax}.
  Notation num := (binary_float prec emax).
  Local Instance FO5 : ScalarOps num := ieee_ops prec emax.

  Lemma locate_any d (c : bspline num (vec num d)) (t : num) :
    let knots := map B2R (bs_knots c) in
    let p := bspline_degree (bs_pts c) knots in
    let n := length (bs_pts c) in
    valid_bspline (bs_pts c) knots -> (forall x, In x (bs_knots c) -> is_finite x = true) ->
    (is_nan t = true -> nth (n - 1) knots 0 < nth n knots 0) ->
    exists k, locate_span c t = Ok (Z.of_nat k) /\ (p <= k < n)%nat.
  Proof.
    intros knots p n Hv HK Hnan.
    pose (c' := bsreal prec emax c).
    assert (Hlen : length (bs_pts c') = length (bs_pts c)) by (unfold c'; cbn; apply map_length).
    assert (Hp' : bspline_degree (bs_pts c') (bs_knots c') = p).
    { unfold bspline_degree. rewrite Hlen. reflexivity. }
    assert (Hv' : valid_bspline (bs_pts c') (bs_knots c')).
    { destruct Hv as [V1 V2 V3 V4]. constructor.
      - rewrite Hlen. exact V1.
      - rewrite Hp', Hlen. exact V2.
      - exact V3.
      - rewrite Hp', Hlen. exact V4. }
    assert (Hpn : (p < n)%nat) by (apply (vb_pts _ _ Hv)).
    assert (Hdom := vb_domain _ _ Hv). fold knots p n in Hdom.
    assert (HkN : length (bs_knots c) = (n + p + 1)%nat).
    { pose proof (vb_len _ _ Hv) as V1. unfold n, p, bspline_degree. unfold knots in *. rewrite map_length in *. lia. }
    assert (Hfin : forall s : num, is_finite s = true -> exists k, locate_span c s = Ok (Z.of_nat k) /\ (p <= k < n)%nat).
    { intros s Fs. destruct (bspline_locate c' (B2R s) Hv') as (k & Ek & Hk & _). rewrite Hp', Hlen in Hk.
      exists k. split; [|exact Hk].
      pose proof (flocate_span prec emax c s HK Fs) as HR. fold c' in HR. rewrite Ek in HR.
      destruct (locate_span c s); simpl in HR; try contradiction. now subst. }
    assert (Hdeg : bs_degree c = Z.of_nat p) by (unfold bs_degree, zlen; rewrite HkN; fold n; lia).
    assert (Has : (zlen (bs_pts c) <? zlen (bs_knots c))%Z = true) by (apply Z.ltb_lt; unfold zlen; rewrite HkN; fold n; lia).
    assert (Hhi : (zlen (bs_knots c) - Z.of_nat p - 1)%Z = Z.of_nat n) by (unfold zlen; rewrite HkN; lia).
    assert (Hkn : arr (bs_knots c) (Z.of_nat n + Z.of_nat p + 1) (fun i => nth (Z.to_nat i) (bs_knots c) s0)).
    { replace (Z.of_nat n + Z.of_nat p + 1)%Z with (zlen (bs_knots c)) by (unfold zlen; lia). apply arr_nth. }
    set (U := fun i : Z => nth (Z.to_nat i) (bs_knots c) s0) in *.
    assert (HU : forall m, (m < n + p + 1)%nat -> is_finite (U (Z.of_nat m)) = true /\ nth m knots 0 = B2R (U (Z.of_nat m))).
    { intros m Hm. unfold U. rewrite Nat2Z.id. split; [apply HK, nth_In; lia|].
      unfold knots. change 0 with (B2R (@s0 num FO5)). apply map_nth. }
    destruct (HU p ltac:(lia)) as [Fp Ep]. destruct (HU n ltac:(lia)) as [Fn En].
    assert (Eloc : forall s, locate_span c s = if sle s (U (Z.of_nat p)) then Ok (Z.of_nat p)
        else if sle (U (Z.of_nat n)) s then do i <- bypass_before (bs_knots c) (Z.of_nat n); Ok (i - 1)%Z
        else do mid <- span_search (bs_knots c) s (Z.of_nat p) (Z.of_nat n); bypass_after (bs_knots c) mid).
    { intros s. unfold locate_span. rewrite Has. cbn [assert_]. rewrite bind_Ok, Hdeg, Hhi. cbv zeta.
      rewrite (arr_get _ _ _ _ Hkn) by lia. rewrite bind_Ok. fold (U (Z.of_nat p)).
      destruct (sle s (U (Z.of_nat p))); [reflexivity|].
      rewrite (arr_get _ _ _ _ Hkn) by lia. now rewrite bind_Ok. }
    destruct t as [s|s| |s m e He]; [apply Hfin; reflexivity| | |apply Hfin; reflexivity].
    - (* infinities *)
      destruct s.
      + exists p. split; [|lia]. rewrite Eloc.
        destruct (U (Z.of_nat p)) as [sp|sp| |sp mp ep hp]; try discriminate Fp; reflexivity.
      + destruct (Hfin (U (Z.of_nat n)) Fn) as (k & Ek & Hk). exists k. split; [|exact Hk].
        rewrite <- Ek, !Eloc.
        replace (sle (B754_infinity false) (U (Z.of_nat p))) with false
          by (destruct (U (Z.of_nat p)) as [sp|sp| |sp mp ep hp]; try discriminate Fp; reflexivity).
        replace (sle (U (Z.of_nat n)) (B754_infinity false)) with true
          by (destruct (U (Z.of_nat n)) as [sp|sp| |sp mp ep hp]; try discriminate Fn; reflexivity).
        cbn [sle FO5 ieee_ops]. rewrite !Bleb_correct by assumption.
        rewrite Rle_bool_false by lra. rewrite Rle_bool_true by lra. reflexivity.
    - (* NaN *)
      specialize (Hnan eq_refl). rewrite Eloc.
      assert (N1 : forall x : num, sle B754_nan x = false) by (intros []; reflexivity).
      assert (N2 : forall x : num, sle x B754_nan = false) by (intros []; reflexivity).
      assert (N3 : forall x : num, slt B754_nan x = false) by (intros []; reflexivity).
      rewrite N1, N2. unfold span_search. cbn [while].
      set (mid := Z.quot (Z.of_nat n + Z.of_nat p) 2).
      assert (Hmid : (Z.of_nat p <= mid < Z.of_nat n)%Z).
      { unfold mid. rewrite Z.quot_div_nonneg by lia.
        split; [apply Z.div_le_lower_bound; lia|apply Z.div_lt_upper_bound; lia]. }
      rewrite (arr_get _ _ _ mid Hkn) by lia. rewrite bind_Ok, N3.
      rewrite (arr_get _ _ _ (mid + 1)%Z Hkn) by lia. rewrite !bind_Ok, N2. rewrite bind_Ok.
      assert (Hkr : arr knots (Z.of_nat n + Z.of_nat p + 1) (fun i => nth (Z.to_nat i) knots 0)).
      { replace (Z.of_nat n + Z.of_nat p + 1)%Z with (zlen knots) by (unfold zlen, knots; rewrite map_length; lia). apply arr_nth. }
      destruct (bypass_after_below knots _ _ mid (Z.of_nat n) Hkr) as (j & Ej & Hj); [lia|lia| |].
      { rewrite Nat2Z.id. replace (Z.to_nat (Z.of_nat n - 1)) with (n - 1)%nat by lia. lra. }
      exists (Z.to_nat j). split; [|lia]. rewrite Z2Nat.id by lia.
      assert (H2 : Forall2 (frel prec emax) (bs_knots c) knots).
      { unfold knots. clear - HK. induction (bs_knots c) as [|x l IH]; [constructor|]. constructor.
        - split; [apply HK; now left|reflexivity].
        - apply IH. intros y Hy. apply HK. now right. }
      pose proof (fbypass_after prec emax _ _ mid H2) as HR. rewrite Ej in HR. rewrite bind_Ok.
      change (@bypass_after num (FO2 prec emax)) with (@bypass_after num FO5) in HR.
      destruct (bypass_after (bs_knots c) mid); simpl in HR; try contradiction. now subst.
  Qed.

  Lemma evaluate_any d (c : bspline num (vec num d)) (t : num) :
    let knots := map B2R (bs_knots c) in
    let n := length (bs_pts c) in
    tol_ok prec emax ->
    valid_bspline (bs_pts c) knots -> (forall x, In x (bs_knots c) -> is_finite x = true) -> bs_periodic c = false ->
    (is_nan t = true -> nth (n - 1) knots 0 < nth n knots 0) ->
    exists q, bs_evaluate c t = Ok q.
  Proof.
    intros knots n Htol Hv HK Hper Hnan.
    destruct (locate_any d c t Hv HK Hnan) as (k & Ek & Hk). fold knots n in Hk.
    set (p := bspline_degree (bs_pts c) knots) in *.
    assert (Hpn : (p < n)%nat) by lia.
    assert (HkN : length (bs_knots c) = (n + p + 1)%nat).
    { pose proof (vb_len _ _ Hv) as V1. unfold n, p, bspline_degree. unfold knots in *. rewrite map_length in *. lia. }
    assert (Hpts : arr (bs_pts c) (Z.of_nat n) (fun i => nth (Z.to_nat i) (bs_pts c) p0)) by apply arr_nth.
    assert (Hkn : arr (bs_knots c) (Z.of_nat n + Z.of_nat p + 1) (fun i => nth (Z.to_nat i) (bs_knots c) s0)).
    { replace (Z.of_nat n + Z.of_nat p + 1)%Z with (zlen (bs_knots c)) by (unfold zlen; lia). apply arr_nth. }
    rewrite (bs_evaluate_gtri c (Z.of_nat n) (Z.of_nat p) (Z.of_nat k) _ _ t Hpts Hkn ltac:(lia) Hper
             (fdiff_nonzero prec emax Htol) Ek ltac:(lia)). eauto.
  Qed.
End Float.

Definition evaluate_any_double := fun d c t => @evaluate_any 53 1024 prec64 max64 d c t tol_double.

Lemma special_double : forall (d : nat) (pts : list (vec double d)) (t : double),
  let ev := @bz_evaluate double (vec double d) double_ops (@vec_ops double double_ops d) (mk_bezier pts) t in
  (length pts = 1%nat -> @bz0_evaluate double (vec double d) (mk_bezier pts) t = ev) /\
  (length pts = 2%nat -> @bz1_evaluate double (vec double d) double_ops (@vec_ops double double_ops d) (mk_bezier pts) t = ev) /\
  (length pts = 3%nat -> @bz2_evaluate double (vec double d) double_ops (@vec_ops double double_ops d) (mk_bezier pts) t = ev) /\
  (length pts = 4%nat -> @bz3_evaluate double (vec double d) double_ops (@vec_ops double double_ops d) (mk_bezier pts) t = ev).
Proof.
  intros d pts t ev. pose proof (@padd_comm_num 53 1024 prec64 max64 d) as H.
  split; [|split; [|split]]; intros Hn.
  - destruct pts as [|a [|b pts]]; try discriminate. reflexivity.
  - exact (@bz1_generic double (vec double d) double_ops (@vec_ops double double_ops d) H pts t Hn).
  - exact (@bz2_generic double (vec double d) double_ops (@vec_ops double double_ops d) H pts t Hn).
  - exact (@bz3_generic double (vec double d) double_ops (@vec_ops double double_ops d) H pts t Hn).
Qed.

(** A quadratic spline whose last knot has multiplicity 4. *)
Definition nan_spline : bspline double (vec double 2) :=
  mk_bspline [dpt 0 1; dpt 1 3; dpt 4 (-2); dpt (1 # 3) 0] (map dofQ [0; 0; 0; 1; 1; 1; 1]%Q).
Lemma nan_knots : map B2R (bs_knots nan_spline) = [0; 0; 0; 1; 1; 1; 1].
Proof.
  unfold nan_spline, mk_bspline. cbn [bs_knots map]. destruct zero_value as [_ E0].
  dval 1%Q false 4503599627370496%positive (-52)%Z. rewrite E0, E. simpl IZR. repeat f_equal; lra.
Qed.
Lemma nan_refuted : exists c : bspline double (vec double 2),
  valid_bspline (bs_pts c) (map B2R (bs_knots c)) /\ (forall x, In x (bs_knots c) -> is_finite x = true) /\
  bs_periodic c = false /\
  @bs_evaluate double (vec double 2) double_ops (@vec_ops double double_ops 2) c B754_nan = Undef.
Proof.
  exists nan_spline. rewrite nan_knots. split; [|split; [|split; [reflexivity|vm_compute; reflexivity]]].
  - assert (Hs : forall i j, (i <= j < 7)%nat -> nth i [0; 0; 0; 1; 1; 1; 1] 0 <= nth j [0; 0; 0; 1; 1; 1; 1] 0).
    { intros i j Hij. do 7 (destruct i as [|i]; [do 7 (destruct j as [|j]; [try lia; simpl nth; lra|]); lia|]). lia. }
    constructor.
    + cbn. lia.
    + cbn. lia.
    + intros i j Hij. apply Hs. exact Hij.
    + cbn. lra.
  - intros x Hx. change (bs_knots nan_spline) with (map dofQ [0; 0; 0; 1; 1; 1; 1]%Q) in Hx.
    apply in_map_iff in Hx. destruct Hx as (q & <- & Hq).
    apply (small_values q). cbn [In] in *. intuition.
Qed.
