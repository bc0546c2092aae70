(** Rounding errors of the derivative of a Bezier curve. *)
From Coq Require Import Reals Lra Lia ZArith QArith List Bool.
From Flocq Require Import Core IEEE754.BinarySingleNaN.
From Verif Require Import Monad MonadFacts Scalar ScalarFacts Spec SpecFacts ModelCurve ModelBezier BezierThms
  SpecFloat ModelFloat FloatFacts FloatThms FloatCases.
Import ListNotations.
Local Open Scope R_scope.

(** * The derivative is a curve of one degree less, in any arithmetic *)
Section Gen.
  Context {T P : Type} {SO : ScalarOps T} {V : PointOps T P}.

  Definition dcoef (n : nat) (pts : list P) (i : Z) : P :=
    pmul (sofZ (Z.of_nat n)) (psub (nth (Z.to_nat (i + 1)) pts p0) (nth (Z.to_nat i) pts p0)).

  Lemma gderivative_coefficients (pts : list P) n : length pts = S n ->
    exists l, bz_derivative_coefficients (Z.of_nat n) pts = Ok l /\
      arr l (Z.of_nat n + 1) (fun i => if (i <? Z.of_nat n)%Z then dcoef n pts i else nth (Z.to_nat i) pts p0).
  Proof.
    intros Hn. unfold bz_derivative_coefficients. cbv zeta. replace (Z.of_nat n - 1 + 1)%Z with (Z.of_nat n) by lia.
    assert (Ha : arr pts (Z.of_nat n + 1) (fun i => nth (Z.to_nat i) pts p0)).
    { replace (Z.of_nat n + 1)%Z with (zlen pts) by (unfold zlen; lia). apply arr_nth. }
    match goal with |- context [for_up 0 (Z.of_nat n) ?B pts] =>
      destruct (for_up_inv (fun i0 s => arr s (Z.of_nat n + 1)
        (fun i => if (i <? i0)%Z then dcoef n pts i else nth (Z.to_nat i) pts p0)) 0 (Z.of_nat n) B pts) as (s' & Es & Hs') end.
    - lia.
    - eapply arr_ext; [exact Ha|]. intros i Hi. cbv beta. destruct (Z.ltb_spec i 0); [lia|reflexivity].
    - intros i s Hi Hs. rewrite (arr_get _ _ _ (i + 1)%Z Hs) by lia. rewrite bind_Ok.
      rewrite (arr_get _ _ _ i Hs) by lia. rewrite bind_Ok.
      destruct (Z.ltb_spec (i + 1) i); [lia|]. destruct (Z.ltb_spec i i); [lia|].
      destruct (arr_set s _ _ i (dcoef n pts i) Hs) as (s3 & E3 & HS3); [lia|].
      exists s3. split; [exact E3|]. eapply arr_ext; [exact HS3|]. intros j Hj. cbv beta. unfold fupd.
      destruct (Z.eqb_spec j i) as [->|Hne].
      + destruct (Z.ltb_spec i (i + 1)); [reflexivity|lia].
      + destruct (Z.ltb_spec j i); destruct (Z.ltb_spec j (i + 1)); try lia; reflexivity.
    - exists s'. split; [exact Es|exact Hs'].
  Qed.

  Lemma bz_derivative_gtri (pts : list P) t n : length pts = S (S n) ->
    bz_evaluate_derivative (mk_bezier pts) t =
      Ok (gtri (fun _ _ a b => padd (pmul t b) (pmul (ssub s1 t) a)) (dcoef (S n) pts) n (Z.of_nat n)).
  Proof.
    intros Hn. unfold bz_evaluate_derivative, bz_unwrap. cbn [bz_periodic mk_bezier]. rewrite bind_Ok.
    unfold bz_degree. cbn [bz_pts mk_bezier].
    replace (zlen pts - 1)%Z with (Z.of_nat (S n)) by (unfold zlen; lia). cbv zeta.
    destruct (Z.leb_spec 0 (Z.of_nat (S n))); [|lia]. cbn [assert_]. rewrite bind_Ok.
    destruct (Z.eqb_spec (Z.of_nat (S n)) 0); [lia|].
    destruct (gderivative_coefficients pts (S n) Hn) as (l & El & Hl). rewrite El, bind_Ok.
    replace (Z.of_nat (S n) - 1)%Z with (Z.of_nat n) by lia.
    unfold bz_deBoor. destruct (Z.ltb_spec 0 (Z.of_nat n)) as [Hl0|Hl0].
    - destruct (arr_alloc t (Z.of_nat (S n))) as (bv & Eb & Hb); [lia|]. rewrite Eb, bind_Ok.
      unfold bz_blossom. cbn [psub scal_point_ops].
      destruct (gtri_loops (fun _ _ a b => padd (pmul t b) (pmul (ssub s1 t) a))
        (fun rec_step c => for_down (Z.of_nat n) rec_step (fun j c =>
          do t <- get bv (rec_step - 1)%Z; do a <- get c j; do b <- get c (j - 1)%Z;
          set c j (padd (pmul t a) (pmul (ssub s1 t) b))) c)
        (fun rec_step j c => do t <- get bv (rec_step - 1)%Z; do a <- get c j; do b <- get c (j - 1)%Z;
          set c j (padd (pmul t a) (pmul (ssub s1 t) b))) l _ _ (Z.of_nat n) Hl) as (p' & E & H').
      + lia.
      + reflexivity.
      + intros r j s g Hr Hj Hs. rewrite (arr_get _ _ _ (r - 1)%Z Hb) by lia. rewrite bind_Ok.
        rewrite (arr_get _ _ _ j Hs) by lia. rewrite bind_Ok.
        rewrite (arr_get _ _ _ (j - 1)%Z Hs) by lia. now rewrite bind_Ok.
      + rewrite E, bind_Ok. rewrite (arr_get _ _ _ (Z.of_nat n) H') by lia. cbv beta.
        rewrite Z.leb_refl, Z.min_id, Nat2Z.id. f_equal.
        enough (HH : forall m j, (0 <= j - Z.of_nat m)%Z -> (j <= Z.of_nat n)%Z ->
          gtri (fun _ _ a b => padd (pmul t b) (pmul (ssub s1 t) a))
            (fun i => if (i <? Z.of_nat (S n))%Z then dcoef (S n) pts i else nth (Z.to_nat i) pts p0) m j =
          gtri (fun _ _ a b => padd (pmul t b) (pmul (ssub s1 t) a)) (dcoef (S n) pts) m j) by (apply HH; lia).
        induction m as [|m IH]; intros j Hj1 Hj2; cbn [gtri].
        * destruct (Z.ltb_spec j (Z.of_nat (S n))); [reflexivity|lia].
        * rewrite (IH (j - 1)%Z), (IH j) by lia. reflexivity.
    - rewrite bind_Ok. assert (n = O) by lia. subst n. rewrite (arr_get _ _ _ _ Hl) by lia. reflexivity.
  Qed.
End Gen.

Section Float.
  Context (prec emax : Z) {Hprec : Prec_gt_0 prec} {Hmax : Prec_lt_emax prec emax}.
  Notation num := (binary_float prec emax).
  Notation u := (unit_roundoff prec).
  Notation eta := (underflow_error prec emax).
  Notation Omega := (bpow radix2 emax).
  Local Instance FO6 : ScalarOps num := ieee_ops prec emax.

  (** The triangle of points that already carry an error [E]. *)
  Lemma tri_near d i (c : Z -> vec num d) (c' : Z -> vec R d) (t : num) n M E : (i < d)%nat ->
    0 <= M -> (forall j, (0 <= j <= Z.of_nat n)%Z -> near prec emax M E (coord d i (c j)) (coord d i (c' j))) ->
    is_finite t = true -> 0 <= B2R t <= 1 -> growth u eta M n < Omega ->
    near prec emax (growth u eta M n) (growth u eta M n - M + E)
      (coord d i (gtri (fun _ _ a b => padd (pmul t b) (pmul (ssub s1 t) a)) c n (Z.of_nat n)))
      (coord d i (gtri (fun _ _ a b => padd (pmul (B2R t) b) (pmul (ssub s1 (B2R t)) a)) c' n (Z.of_nat n))).
  Proof.
    intros Hi HM Hc Ft Ht HO.
    enough (HH : forall r j, (r <= n)%nat -> (Z.of_nat r <= j <= Z.of_nat n)%Z ->
      near prec emax (growth u eta M r) (growth u eta M r - M + E)
        (coord d i (gtri (fun _ _ a b => padd (pmul t b) (pmul (ssub s1 t) a)) c r j))
        (coord d i (gtri (fun _ _ a b => padd (pmul (B2R t) b) (pmul (ssub s1 (B2R t)) a)) c' r j))).
    { apply HH; lia. }
    induction r as [|r IH]; intros j Hr Hj.
    - cbn [gtri]. rewrite growth_0. eapply near_weaken; [| |apply Hc; lia]; lra.
    - cbn [gtri].
      assert (I1 := IH (j - 1)%Z ltac:(lia) ltac:(lia)). assert (I2 := IH j ltac:(lia) ltac:(lia)). clear IH.
      set (X := gtri _ c r (j - 1)) in *. set (Y := gtri _ c r j) in *.
      set (X' := gtri _ c' r (j - 1)) in *. set (Y' := gtri _ c' r j) in *.
      rewrite gcoord_add, !gcoord_mul by exact Hi. rewrite coord_add, !coord_mul by exact Hi.
      destruct (one_minus_spec prec emax t Ft Ht) as (Fs & _ & _ & Es).
      pose proof (growth_S prec emax M r HM) as HG.
      pose proof (growth_mono prec emax M (S r) n HM ltac:(lia)) as HG2.
      eapply near_weaken; [exact HG| |apply near_lerp with (A := growth u eta M r) (E := growth u eta M r - M + E); try assumption].
      + cbn [s1 ssub R_ops]. lra.
      + lra.
      + cbn [s1 ssub R_ops]. lra.
      + cbn [s1 ssub R_ops]. lra.
      + apply finite_B2R_err0. lra.
      + lra.
  Qed.

  (** Small integers are exact. *)
  Lemma int_spec (z : Z) : (0 <= z)%Z -> IZR z * u <= 1 ->
    is_finite (@bofZ prec emax _ _ z) = true /\ B2R (@bofZ prec emax _ _ z) = IZR z.
  Proof.
    intros Hz0 Hz. unfold bofZ. pose proof (binary_normalize_correct prec emax Hprec Hmax mode_NE z 0 false) as H.
    cbv zeta in H. replace (F2R (Float radix2 z 0)) with (IZR z) in H by (unfold F2R; simpl; lra).
    pose proof (prec_gt_0 prec) as Hp. pose proof (prec_lt_emax prec emax) as He.
    assert (Hz1 : IZR z <= bpow radix2 prec).
    { unfold unit_roundoff in Hz. rewrite bpow_opp in Hz. pose proof (bpow_gt_0 radix2 prec).
      apply (Rmult_le_reg_r (/ bpow radix2 prec)); [now apply Rinv_0_lt_compat|]. rewrite Rinv_r by lra. exact Hz. }
    assert (Hf : generic_format radix2 (SpecFloat.fexp prec emax) (IZR z)).
    { destruct (Rle_lt_or_eq_dec _ _ Hz1) as [Hl|Heq].
      - apply generic_format_FLT. exists (Float radix2 z 0); [unfold F2R; simpl; lra| |].
        + simpl. apply lt_IZR. rewrite Z.abs_eq by lia. change (Z.pow_pos 2) with (Z.pow_pos radix2). eapply Rlt_le_trans; [exact Hl|]. rewrite <- IZR_Zpower by lia. apply Rle_refl.
        + simpl. unfold SpecFloat.emin. lia.
      - rewrite Heq. apply generic_format_bpow. unfold SpecFloat.fexp, SpecFloat.emin. lia. }
    rewrite (fl_id prec emax _ Hf) in H. rewrite Rlt_bool_true in H; [tauto|].
    rewrite Rabs_pos_eq by (apply IZR_le; lia). eapply Rle_lt_trans; [exact Hz1|]. apply bpow_lt. exact He.
  Qed.

  (** A difference times an integer. *)
  Lemma coef_near (k : Z) (x y : num) M : (1 <= k)%Z -> 24 * IZR k * u <= 1 ->
    is_finite x = true -> is_finite y = true -> Rabs (B2R x) <= M -> Rabs (B2R y) <= M ->
    4 * IZR k * M <= bpow radix2 (emax - 1) ->
    near prec emax (22 / 10 * IZR k * M + eta) (42 / 10 * IZR k * u * M + eta)
      (Bmult mode_NE (@bofZ prec emax _ _ k) (Bminus mode_NE x y)) (IZR k * (B2R x - B2R y)).
  Proof.
    intros Hk Hku Fx Fy Hx Hy HM.
    pose proof (u_pos prec) as Hu. pose proof (eta_pos prec emax) as He.
    assert (Hk1 : 1 <= IZR k) by (apply (IZR_le 1); exact Hk).
    assert (HM0 : 0 <= M) by (pose proof (Rabs_pos (B2R x)); lra).
    assert (Hu24 : u <= / 24) by nra.
    assert (Hkm : 0 <= IZR k * M) by nra.
    assert (HMk : M <= IZR k * M) by nra.
    assert (HO : Omega = 2 * bpow radix2 (emax - 1)).
    { change 2 with (bpow radix2 1). rewrite <- bpow_plus. f_equal. lia. }
    pose proof (prec_gt_0 prec). pose proof (prec_lt_emax prec emax).
    assert (H1 : 1 <= bpow radix2 (emax - 1)) by (change 1 with (bpow radix2 0); apply bpow_le; lia).
    assert (Heu : eta <= u) by (unfold underflow_error, unit_roundoff; apply bpow_le; lia).
    assert (HD : Rabs (B2R x - B2R y) <= 2 * M).
    { apply Rabs_le_inv in Hx. apply Rabs_le_inv in Hy. apply Rabs_le. lra. }
    set (D := B2R x - B2R y) in *.
    destruct (sub_spec prec emax x y Fx Fy) as (Fd & _ & Ed).
    { fold D. pose proof (Rabs_pos D). assert (u * Rabs D <= / 24 * (2 * M)) by (apply Rmult_le_compat; lra). lra. }
    fold D in Ed. set (s := Bminus mode_NE x y) in *.
    assert (Hs : Rabs (B2R s) <= (1 + u) * (2 * M)).
    { replace (B2R s) with ((B2R s - D) + D) by ring. eapply Rle_trans; [apply Rabs_triang|].
      assert (u * Rabs D <= u * (2 * M)) by (apply Rmult_le_compat_l; lra). lra. }
    destruct (int_spec k ltac:(lia) ltac:(nra)) as [Fk Ek].
    assert (HP : Rabs (IZR k * B2R s) <= IZR k * ((1 + u) * (2 * M))).
    { rewrite Rabs_mult, (Rabs_pos_eq (IZR k)) by lra. apply Rmult_le_compat_l; lra. }
    assert (HukM : u * (IZR k * M) <= / 24 * (IZR k * M)) by (apply Rmult_le_compat_r; lra).
    assert (Huk0 : 0 <= u * (IZR k * M)) by (apply Rmult_le_pos; lra).
    assert (Huu : u * (u * (IZR k * M)) <= / 24 * (u * (IZR k * M))) by (apply Rmult_le_compat_r; lra).
    assert (Huu0 : 0 <= u * (u * (IZR k * M))) by (apply Rmult_le_pos; lra).
    assert (HP2 : u * Rabs (IZR k * B2R s) <= u * (IZR k * ((1 + u) * (2 * M)))) by (apply Rmult_le_compat_l; lra).
    assert (EQ1 : IZR k * ((1 + u) * (2 * M)) = 2 * (IZR k * M) + 2 * (u * (IZR k * M))) by ring.
    assert (EQ2 : u * (IZR k * ((1 + u) * (2 * M))) = 2 * (u * (IZR k * M)) + 2 * (u * (u * (IZR k * M)))) by ring.
    destruct (mul_spec prec emax _ s Fk Fd) as (Fm & _ & Em).
    { rewrite Ek. rewrite EQ1 in HP. rewrite EQ2 in HP2. lra. }
    rewrite Ek in Em. set (m := Bmult mode_NE _ s) in *.
    assert (HkD : Rabs (IZR k * B2R s - IZR k * D) <= 2 * (u * (IZR k * M))).
    { rewrite <- Rmult_minus_distr_l, Rabs_mult, (Rabs_pos_eq (IZR k)) by lra.
      replace (2 * (u * (IZR k * M))) with (IZR k * (u * (2 * M))) by ring. apply Rmult_le_compat_l; [lra|].
      eapply Rle_trans; [exact Ed|]. apply Rmult_le_compat_l; lra. }
    split; [exact Fm|]. split.
    - replace (B2R m) with ((B2R m - IZR k * B2R s) + IZR k * B2R s) by ring.
      eapply Rle_trans; [apply Rabs_triang|]. rewrite EQ1 in HP. rewrite EQ2 in HP2. lra.
    - replace (B2R m - IZR k * D) with ((B2R m - IZR k * B2R s) + (IZR k * B2R s - IZR k * D)) by ring.
      eapply Rle_trans; [apply Rabs_triang|]. rewrite EQ2 in HP2.
      replace (42 / 10 * IZR k * u * M) with (42 / 10 * (u * (IZR k * M))) by ring. lra.
  Qed.

  Lemma derivative_error d (pts : list (vec num d)) (t : num) n M :
    length pts = S n -> 0 <= M -> 4 * INR n * M <= bpow radix2 (emax - 1) -> 24 * INR n * u <= 1 ->
    (forall p, In p pts -> vfinite d p /\ forall i, (i < d)%nat -> Rabs (coord d i (vreal d p)) <= M) ->
    is_finite t = true -> 0 <= B2R t <= 1 ->
    exists (q : vec num d) (f' : R -> vec R d), bz_evaluate_derivative (mk_bezier pts) t = Ok q /\ vfinite d q /\
      (forall s, vderiv (bernstein_curve (map (vreal d) pts)) s (f' s)) /\
      forall i, (i < d)%nat -> Rabs (coord d i (vreal d q) - coord d i (f' (B2R t))) <= INR n * (9 * INR n * u * M + 4 * eta).
  Proof.
    intros Hn HM HMO Hu Hp Ft Ht.
    set (rp := map (vreal d) pts).
    assert (Hn' : length rp = S n) by (unfold rp; now rewrite map_length).
    assert (Hne : rp <> []) by (intros E; rewrite E in Hn'; discriminate).
    destruct (bezier_derivatives d rp Hne) as (f & f' & f2 & E0 & E1 & _ & HV & _).
    assert (HV' : forall s, vderiv (bernstein_curve rp) s (f' s)).
    { intros s i Hi. specialize (HV s i Hi).
      replace (fun x => coord d i (bernstein_curve rp x)) with (fun x => coord d i (f x)); [exact HV|].
      apply FunctionalExtensionality.functional_extensionality. intros x.
      pose proof (E0 x) as Hx. rewrite (bezier_bernstein d rp x Hne) in Hx.
      assert (Hx' : bernstein_curve rp x = f x) by congruence. now rewrite Hx'. }
    pose proof (u_pos prec) as Hu0. pose proof (eta_pos prec emax) as He.
    destruct n as [|n].
    - (* a point *)
      exists p0, f'. split.
      { unfold bz_evaluate_derivative, bz_unwrap, bz_degree. cbn [bz_periodic mk_bezier bz_pts]. rewrite bind_Ok.
        replace (zlen pts - 1)%Z with 0%Z by (unfold zlen; lia). reflexivity. }
      assert (Hz : forall i, (i < d)%nat -> is_finite (coord d i (p0 : vec num d)) = true /\ B2R (coord d i (p0 : vec num d)) = 0).
      { clear. intros i. revert i. induction d as [|d IH]; intros i Hi; [lia|]. destruct i; [split; reflexivity|]. apply (IH i). lia. }
      split; [apply (vfinite_coord prec emax d p0); intros i Hi; apply (Hz i Hi)|]. split; [exact HV'|].
      intros i Hi. rewrite (vreal_coord prec emax). pose proof (proj2 (Hz i Hi)) as Hz2. match goal with |- Rabs (?x - _) <= _ => replace x with 0 by (symmetry; exact Hz2) end.
      assert (Ef : f' (B2R t) = p0).
      { pose proof (E1 (B2R t)) as Hx. unfold bz_evaluate_derivative, bz_unwrap, bz_degree in Hx.
        cbn [bz_periodic mk_bezier bz_pts] in Hx. rewrite bind_Ok in Hx.
        replace (zlen rp - 1)%Z with 0%Z in Hx by (unfold zlen; lia). symmetry in Hx. match type of Hx with Ok ?a = _ => assert (Hx2 : Ok a = Ok (p0 : vec R d)) by exact Hx end. congruence. }
      rewrite Ef, coord_0 by exact Hi. simpl INR. rewrite Rminus_0_r, Rabs_R0. lra.
    - exists (gtri (fun _ _ a b => padd (pmul t b) (pmul (ssub s1 t) a)) (dcoef (S n) pts) n (Z.of_nat n)), f'.
      split; [now apply bz_derivative_gtri|].
      assert (Ef : f' (B2R t) = gtri (fun _ _ a b => padd (pmul (B2R t) b) (pmul (ssub s1 (B2R t)) a)) (dcoef (S n) rp) n (Z.of_nat n)).
      { pose proof (E1 (B2R t)) as Hx. rewrite (bz_derivative_gtri rp (B2R t) n Hn') in Hx. congruence. }
      set (k := Z.of_nat (S n)) in *. assert (Hk : IZR k = INR (S n)) by (unfold k; now rewrite INR_IZR_INZ).
      rewrite <- Hk in *. assert (Hk1 : 1 <= IZR k) by (apply (IZR_le 1); unfold k; lia).
      assert (Hun : 24 * INR n * u <= 1).
      { rewrite S_INR in Hk. pose proof (pos_INR n). nra. }
      assert (HkM : 0 <= IZR k * M) by nra.
      pose proof (prec_gt_0 prec). pose proof (prec_lt_emax prec emax).
      assert (Heu : eta <= u) by (unfold underflow_error, unit_roundoff; apply bpow_le; lia).
      assert (Hu24 : u <= / 24) by nra.
      assert (Hb2 : 2 <= bpow radix2 (emax - 1)).
      { change 2 with (bpow radix2 1). apply bpow_le. 
        assert (prec <> 1)%Z; [|lia]. intros ->. unfold unit_roundoff in Hu24. assert (E2 : bpow radix2 (- (1)) = / 2) by reflexivity. rewrite E2 in Hu24. lra. }
      set (M' := 22 / 10 * IZR k * M + eta).
      assert (HM' : 0 <= M' <= bpow radix2 (emax - 1)) by (unfold M'; nra).
      assert (HT : forall i, (i < d)%nat -> near prec emax (growth u eta M' n) (growth u eta M' n - M' + (42 / 10 * IZR k * u * M + eta))
        (coord d i (gtri (fun _ _ a b => padd (pmul t b) (pmul (ssub s1 t) a)) (dcoef (S n) pts) n (Z.of_nat n)))
        (coord d i (f' (B2R t)))).
      { intros i Hi. rewrite Ef. apply tri_near; try assumption; try apply HM'.
        - intros j Hj. unfold dcoef. fold k. rewrite gcoord_mul, gcoord_sub, coord_mul, coord_sub by exact Hi.
          assert (Hnth : forall m, (m < length pts)%nat -> coord d i (nth m rp p0) = B2R (coord d i (nth m pts p0)) /\
            is_finite (coord d i (nth m pts p0)) = true /\ Rabs (B2R (coord d i (nth m pts p0))) <= M).
          { intros m Hm. unfold rp. rewrite (nth_indep (map (vreal d) pts) p0 (vreal d p0)) by (rewrite map_length; lia).
            rewrite map_nth, (vreal_coord prec emax). split; [reflexivity|].
            destruct (Hp (nth m pts p0)) as [H1 H2]; [apply nth_In; exact Hm|].
            split; [now apply (vfinite_coord prec emax d)|]. pose proof (H2 i Hi) as H3. rewrite (vreal_coord prec emax) in H3. exact H3. }
          destruct (Hnth (Z.to_nat (j + 1)) ltac:(lia)) as (Ea & Fa & Ba). destruct (Hnth (Z.to_nat j) ltac:(lia)) as (Eb & Fb & Bb).
          rewrite Ea, Eb. cbn [sofZ smul ssub FO6 ieee_ops R_ops].
          apply coef_near; try assumption; try (unfold k; lia).
        - apply (growth_finite prec emax); [apply HM'|exact Hun|apply HM']. }
      split; [apply (vfinite_coord prec emax d); intros i Hi; apply (HT i Hi)|]. split; [exact HV'|].
      intros i Hi. rewrite (vreal_coord prec emax). eapply Rle_trans; [apply (HT i Hi)|].
      pose proof (growth_bound prec emax M' n (proj1 HM') Hun) as HG.
      assert (Hn1 : INR n = IZR k - 1) by (rewrite Hk, S_INR; ring). rewrite Hn1 in HG.
      assert (Huk : IZR k * u <= / 24) by lra.
      assert (HX : 0 <= IZR k * u * (IZR k * M)) by (apply Rmult_le_pos; [nra|lra]).
      assert (HY : 0 <= u * (IZR k * M)) by (apply Rmult_le_pos; lra).
      assert (HZ : IZR k * u * eta <= / 24 * eta) by (apply Rmult_le_compat_r; lra).
      assert (HW : 0 <= IZR k * u * eta) by (apply Rmult_le_pos; nra).
      assert (HQ : 0 <= u * eta) by nra.
      assert (HE : (IZR k - 1) * (4 * u * M' + 3 * eta) = 88 / 10 * (IZR k * u * (IZR k * M)) - 88 / 10 * (u * (IZR k * M))
         + 4 * (IZR k * u * eta) - 4 * (u * eta) + 3 * (IZR k * eta) - 3 * eta) by (unfold M'; field).
      rewrite HE in HG.
      replace (IZR k * (9 * IZR k * u * M + 4 * eta)) with (9 * (IZR k * u * (IZR k * M)) + 4 * (IZR k * eta)) by ring.
      replace (42 / 10 * IZR k * u * M) with (42 / 10 * (u * (IZR k * M))) by ring.
      assert (eta <= IZR k * eta) by nra. lra.
  Qed.
End Float.
