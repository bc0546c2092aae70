(** Rounding errors of the second derivative of a Bezier curve. *)
From Coq Require Import Reals Lra Lia ZArith QArith List Bool.
From Flocq Require Import Core IEEE754.BinarySingleNaN.
From Verif Require Import Monad MonadFacts Scalar ScalarFacts Spec SpecFacts ModelCurve ModelBezier BezierThms
  SpecFloat ModelFloat FloatFacts FloatThms FloatCases FloatDeriv.
Import ListNotations.
Local Open Scope R_scope.

(** * The second derivative is a curve of two degrees less, in any arithmetic *)
Section Gen.
  Context {T P : Type} {SO : ScalarOps T} {V : PointOps T P}.

  Definition dcoefz (n : nat) (c : Z -> P) (i : Z) : P :=
    pmul (sofZ (Z.of_nat n)) (psub (c (i + 1)%Z) (c i)).

  Lemma gderivative_coefficientsz (pts : list P) (m : Z) (c : Z -> P) n : arr pts m c -> (Z.of_nat n < m)%Z ->
    exists l, bz_derivative_coefficients (Z.of_nat n) pts = Ok l /\
      arr l m (fun i => if (i <? Z.of_nat n)%Z then dcoefz n c i else c i).
  Proof.
    intros Ha Hm. unfold bz_derivative_coefficients. cbv zeta. replace (Z.of_nat n - 1 + 1)%Z with (Z.of_nat n) by lia.
    match goal with |- context [for_up 0 (Z.of_nat n) ?B pts] =>
      destruct (for_up_inv (fun i0 s => arr s m
        (fun i => if (i <? i0)%Z then dcoefz n c i else c i)) 0 (Z.of_nat n) B pts) as (s' & Es & Hs') end.
    - lia.
    - eapply arr_ext; [exact Ha|]. intros i Hi. cbv beta. destruct (Z.ltb_spec i 0); [lia|reflexivity].
    - intros i s Hi Hs. rewrite (arr_get _ _ _ (i + 1)%Z Hs) by lia. rewrite bind_Ok.
      rewrite (arr_get _ _ _ i Hs) by lia. rewrite bind_Ok.
      destruct (Z.ltb_spec (i + 1) i); [lia|]. destruct (Z.ltb_spec i i); [lia|].
      destruct (arr_set s _ _ i (dcoefz n c i) Hs) as (s3 & E3 & HS3); [lia|].
      exists s3. split; [exact E3|]. eapply arr_ext; [exact HS3|]. intros j Hj. cbv beta. unfold fupd.
      destruct (Z.eqb_spec j i) as [->|Hne].
      + destruct (Z.ltb_spec i (i + 1)); [reflexivity|lia].
      + destruct (Z.ltb_spec j i); destruct (Z.ltb_spec j (i + 1)); try lia; reflexivity.
    - exists s'. split; [exact Es|exact Hs'].
  Qed.

  Lemma bz_2nd_derivative_gtri (pts : list P) t n : length pts = S (S (S n)) ->
    bz_evaluate_2nd_derivative (mk_bezier pts) t =
      Ok (gtri (fun _ _ a b => padd (pmul t b) (pmul (ssub s1 t) a)) (dcoefz (S n) (dcoef (S (S n)) pts)) n (Z.of_nat n)).
  Proof.
    intros Hn. unfold bz_evaluate_2nd_derivative, bz_unwrap. cbn [bz_periodic mk_bezier]. rewrite bind_Ok.
    unfold bz_degree. cbn [bz_pts mk_bezier].
    replace (zlen pts - 1)%Z with (Z.of_nat (S (S n))) by (unfold zlen; lia). cbv zeta.
    destruct (Z.leb_spec 0 (Z.of_nat (S (S n)))); [|lia]. cbn [assert_]. rewrite bind_Ok.
    destruct (Z.leb_spec (Z.of_nat (S (S n))) 1); [lia|].
    destruct (gderivative_coefficients pts (S (S n)) Hn) as (l1 & El1 & Hl1). rewrite El1, bind_Ok.
    replace (Z.of_nat (S (S n)) - 1)%Z with (Z.of_nat (S n)) by lia.
    destruct (gderivative_coefficientsz l1 _ _ (S n) Hl1) as (l & El & Hl); [lia|]. rewrite El, bind_Ok.
    replace (Z.of_nat (S (S n)) - 2)%Z with (Z.of_nat n) by lia.
    assert (Hv : forall j, (0 <= j <= Z.of_nat n)%Z ->
      (if (j <? Z.of_nat (S n))%Z
       then dcoefz (S n) (fun i => if (i <? Z.of_nat (S (S n)))%Z then dcoef (S (S n)) pts i else nth (Z.to_nat i) pts p0) j
       else if (j <? Z.of_nat (S (S n)))%Z then dcoef (S (S n)) pts j else nth (Z.to_nat j) pts p0)
      = dcoefz (S n) (dcoef (S (S n)) pts) j).
    { intros j Hj. destruct (Z.ltb_spec j (Z.of_nat (S n))); [|lia]. unfold dcoefz.
      destruct (Z.ltb_spec (j + 1) (Z.of_nat (S (S n)))); [|lia]. destruct (Z.ltb_spec j (Z.of_nat (S (S n)))); [|lia]. reflexivity. }
    unfold bz_deBoor. destruct (Z.ltb_spec 0 (Z.of_nat n)) as [Hl0|Hl0].
    - destruct (arr_alloc t (Z.of_nat (S (S n)))) as (bv & Eb & Hb); [lia|]. rewrite Eb, bind_Ok.
      unfold bz_blossom. cbn [psub scal_point_ops].
      destruct (gtri_loops (fun _ _ a b => padd (pmul t b) (pmul (ssub s1 t) a))
        (fun rec_step c => for_down (Z.of_nat n) rec_step (fun j c =>
          do t <- get bv (rec_step - 1)%Z; do a <- get c j; do b <- get c (j - 1)%Z;
          set c j (padd (pmul t a) (pmul (ssub s1 t) b))) c)
        (fun rec_step j c => do t <- get bv (rec_step - 1)%Z; do a <- get c j; do b <- get c (j - 1)%Z;
          set c j (padd (pmul t a) (pmul (ssub s1 t) b))) l _ _ (Z.of_nat n) Hl) as (p' & E & H').
      + lia.
      + reflexivity.
      + intros r j s g Hr Hj Hs. rewrite (arr_get _ _ _ (r - 1)%Z Hb) by lia. rewrite bind_Ok.
        rewrite (arr_get _ _ _ j Hs) by lia. rewrite bind_Ok.
        rewrite (arr_get _ _ _ (j - 1)%Z Hs) by lia. now rewrite bind_Ok.
      + rewrite E, bind_Ok. rewrite (arr_get _ _ _ (Z.of_nat n) H') by lia. cbv beta.
        rewrite Z.leb_refl, Z.min_id, Nat2Z.id. f_equal.
        match goal with |- gtri _ ?c0 _ _ = _ => enough (HH : forall m j, (0 <= j - Z.of_nat m)%Z -> (j <= Z.of_nat n)%Z ->
          gtri (fun _ _ a b => padd (pmul t b) (pmul (ssub s1 t) a)) c0 m j =
          gtri (fun _ _ a b => padd (pmul t b) (pmul (ssub s1 t) a)) (dcoefz (S n) (dcoef (S (S n)) pts)) m j) by (apply HH; lia) end.
        induction m as [|m IH]; intros j Hj1 Hj2; cbn [gtri].
        * apply Hv; lia.
        * rewrite (IH (j - 1)%Z), (IH j) by lia. reflexivity.
    - rewrite bind_Ok. assert (n = O) by lia. subst n. rewrite (arr_get _ _ _ _ Hl) by lia. reflexivity.
  Qed.
End Gen.

Section Float.
  Context (prec emax : Z) {Hprec : Prec_gt_0 prec} {Hmax : Prec_lt_emax prec emax}.
  Notation num := (binary_float prec emax).
  Notation u := (unit_roundoff prec).
  Notation eta := (underflow_error prec emax).
  Notation Omega := (bpow radix2 emax).
  Local Instance FO7 : ScalarOps num := ieee_ops prec emax.

  (** A difference of values with an error, times an integer. *)
  Lemma coef_near2 (k : Z) (x y : num) M E a b : (1 <= k)%Z -> 24 * IZR k * u <= 1 ->
    near prec emax M E x a -> near prec emax M E y b ->
    4 * IZR k * M <= bpow radix2 (emax - 1) ->
    near prec emax (22 / 10 * IZR k * M + eta) (42 / 10 * IZR k * u * M + eta + 2 * (IZR k * E))
      (Bmult mode_NE (@bofZ prec emax _ _ k) (Bminus mode_NE x y)) (IZR k * (a - b)).
  Proof.
    intros Hk Hku (Fx & Hx & Ex) (Fy & Hy & Ey) HM.
    destruct (coef_near prec emax k x y M Hk Hku Fx Fy Hx Hy HM) as (F & A & E0).
    split; [exact F|]. split; [exact A|]. set (m := Bmult _ _ _) in *.
    replace (B2R m - IZR k * (a - b)) with ((B2R m - IZR k * (B2R x - B2R y)) + IZR k * ((B2R x - a) - (B2R y - b))) by ring.
    eapply Rle_trans; [apply Rabs_triang|]. apply Rplus_le_compat; [exact E0|].
    assert (Hk1 : 1 <= IZR k) by (apply (IZR_le 1); exact Hk).
    rewrite Rabs_mult, (Rabs_pos_eq (IZR k)) by lra.
    replace (2 * (IZR k * E)) with (IZR k * (2 * E)) by ring. apply Rmult_le_compat_l; [lra|].
    apply Rabs_le_inv in Ex. apply Rabs_le_inv in Ey. apply Rabs_le. lra.
  Qed.

  Lemma derivative2_arith (k n M : R) : k = n + 2 -> 0 <= n -> 0 <= M -> 24 * k * u <= 1 ->
    let M1 := 22 / 10 * k * M + eta in
    let M2 := 22 / 10 * (n + 1) * M1 + eta in
    n * (4 * u * M2 + 3 * eta) + (42 / 10 * (n + 1) * u * M1 + eta + 2 * ((n + 1) * (42 / 10 * k * u * M + eta)))
    <= k * (20 * u * (k * (k - 1) * M) + 6 * eta).
  Proof.
    intros Hk Hn HM Hu M1 M2. pose proof (u_pos prec) as Hu0. pose proof (eta_pos prec emax) as He.
    set (D := k * (n + 1) * M).
    assert (HD : 0 <= D) by (unfold D; apply Rmult_le_pos; [apply Rmult_le_pos; lra|lra]).
    replace (k * (k - 1) * M) with D by (unfold D; rewrite Hk; ring).
    assert (E2 : M2 = 484 / 100 * D + 22 / 10 * (n + 1) * eta + eta) by (unfold M2, M1, D; field).
    assert (HuD : 0 <= u * D) by (apply Rmult_le_pos; lra).
    assert (HnuD : 0 <= n * (u * D)) by (apply Rmult_le_pos; lra).
    assert (Hnu : (n + 1) * u <= / 24) by nra.
    assert (Hue : 0 <= u * eta) by (apply Rmult_le_pos; lra).
    assert (Hnue : (n + 1) * u * eta <= / 24 * eta) by (apply Rmult_le_compat_r; lra).
    assert (Hnnue : n * ((n + 1) * u * eta) <= n * (/ 24 * eta)) by (apply Rmult_le_compat_l; lra).
    assert (Hne : 0 <= n * eta) by (apply Rmult_le_pos; lra).
    replace (n * (4 * u * M2 + 3 * eta)) with (1936 / 100 * (n * (u * D)) + 88 / 10 * (n * ((n + 1) * u * eta)) + 4 * ((n + 1) * u * eta) - 4 * (u * eta) + 3 * (n * eta))
      by (rewrite E2; field).
    replace (42 / 10 * (n + 1) * u * M1) with (924 / 100 * (u * D) + 42 / 10 * ((n + 1) * u * eta)) by (unfold M1, D; field).
    replace (2 * ((n + 1) * (42 / 10 * k * u * M + eta))) with (84 / 10 * (u * D) + 2 * (n * eta) + 2 * eta) by (unfold D; field).
    replace (k * (20 * u * D + 6 * eta)) with (20 * (n * (u * D)) + 40 * (u * D) + 6 * (n * eta) + 12 * eta) by (rewrite Hk; ring).
    lra.
  Qed.

  Lemma derivative2_error d (pts : list (vec num d)) (t : num) n M :
    length pts = S n -> 0 <= M -> 10 * (INR n * INR n) * M <= bpow radix2 (emax - 1) -> 24 * INR n * u <= 1 ->
    (forall p, In p pts -> vfinite d p /\ forall i, (i < d)%nat -> Rabs (coord d i (vreal d p)) <= M) ->
    is_finite t = true -> 0 <= B2R t <= 1 ->
    exists (q : vec num d) (f' f'' : R -> vec R d), bz_evaluate_2nd_derivative (mk_bezier pts) t = Ok q /\ vfinite d q /\
      (forall s, vderiv (bernstein_curve (map (vreal d) pts)) s (f' s)) /\ (forall s, vderiv f' s (f'' s)) /\
      forall i, (i < d)%nat ->
        Rabs (coord d i (vreal d q) - coord d i (f'' (B2R t)))
        <= INR n * (20 * u * (INR n * (INR n - 1) * M) + 6 * eta).
  Proof.
    intros Hn HM HMO Hu Hp Ft Ht.
    set (rp := map (vreal d) pts).
    assert (Hn' : length rp = S n) by (unfold rp; now rewrite map_length).
    assert (Hne : rp <> []) by (intros E; rewrite E in Hn'; discriminate).
    destruct (bezier_derivatives d rp Hne) as (f & f' & f2 & E0 & _ & E2 & HV & HV2).
    assert (HV' : forall s, vderiv (bernstein_curve rp) s (f' s)).
    { intros s i Hi. specialize (HV s i Hi).
      replace (fun x => coord d i (bernstein_curve rp x)) with (fun x => coord d i (f x)); [exact HV|].
      apply FunctionalExtensionality.functional_extensionality. intros x.
      pose proof (E0 x) as Hx. rewrite (bezier_bernstein d rp x Hne) in Hx.
      assert (Hx' : bernstein_curve rp x = f x) by congruence. now rewrite Hx'. }
    pose proof (u_pos prec) as Hu0. pose proof (eta_pos prec emax) as He.
    destruct (le_lt_dec n 1) as [Hle|Hgt].
    - (* a point or a segment *)
      assert (Hz1 : (Z.leb 0 (Z.of_nat n) = true) /\ (Z.leb (Z.of_nat n) 1 = true)) by (split; apply Z.leb_le; lia).
      exists p0, f', f2. split.
      { unfold bz_evaluate_2nd_derivative, bz_unwrap, bz_degree. cbn [bz_periodic mk_bezier bz_pts]. rewrite bind_Ok.
        replace (zlen pts - 1)%Z with (Z.of_nat n) by (unfold zlen; lia). cbv zeta. destruct Hz1 as [Z1 Z2].
        rewrite Z1, Z2. reflexivity. }
      assert (Hz : forall i, (i < d)%nat -> is_finite (coord d i (p0 : vec num d)) = true /\ B2R (coord d i (p0 : vec num d)) = 0).
      { clear. intros i. revert i. induction d as [|d IH]; intros i Hi; [lia|]. destruct i; [split; reflexivity|]. apply (IH i). lia. }
      split; [apply (vfinite_coord prec emax d p0); intros i Hi; apply (Hz i Hi)|]. split; [exact HV'|]. split; [exact HV2|].
      intros i Hi. rewrite (vreal_coord prec emax). pose proof (proj2 (Hz i Hi)) as Hz2. match goal with |- Rabs (?x - _) <= _ => replace x with 0 by (symmetry; exact Hz2) end.
      assert (Ef : f2 (B2R t) = p0).
      { pose proof (E2 (B2R t)) as Hx. unfold bz_evaluate_2nd_derivative, bz_unwrap, bz_degree in Hx.
        cbn [bz_periodic mk_bezier bz_pts] in Hx. rewrite bind_Ok in Hx.
        replace (zlen rp - 1)%Z with (Z.of_nat n) in Hx by (unfold zlen; lia). cbv zeta in Hx. destruct Hz1 as [Z1 Z2].
        rewrite Z1, Z2 in Hx. symmetry in Hx. match type of Hx with Ok ?a = _ => assert (Hx2 : Ok a = Ok (p0 : vec R d)) by exact Hx end. congruence. }
      rewrite Ef, coord_0 by exact Hi. rewrite Rminus_0_r, Rabs_R0.
      assert (HE0 : INR n * (INR n - 1) = 0) by (destruct n as [|[|n]]; [simpl; ring|simpl; ring|lia]).
      rewrite HE0. pose proof (pos_INR n). nra.
    - destruct n as [|[|n]]; [lia|lia|]. clear Hgt.
      exists (gtri (fun _ _ a b => padd (pmul t b) (pmul (ssub s1 t) a)) (dcoefz (S n) (dcoef (S (S n)) pts)) n (Z.of_nat n)), f', f2.
      split; [now apply bz_2nd_derivative_gtri|].
      assert (Ef : f2 (B2R t) = gtri (fun _ _ a b => padd (pmul (B2R t) b) (pmul (ssub s1 (B2R t)) a)) (dcoefz (S n) (dcoef (S (S n)) rp)) n (Z.of_nat n)).
      { pose proof (E2 (B2R t)) as Hx. rewrite (bz_2nd_derivative_gtri rp (B2R t) n Hn') in Hx. congruence. }
      set (k := Z.of_nat (S (S n))) in *. set (k' := Z.of_nat (S n)) in *.
      pose proof (pos_INR n) as Hn0.
      assert (Hk : IZR k = INR n + 2) by (unfold k; rewrite <- INR_IZR_INZ, !S_INR; ring).
      assert (Hk' : IZR k' = INR n + 1) by (unfold k'; rewrite <- INR_IZR_INZ, !S_INR; ring).
      assert (HI : INR (S (S n)) = IZR k) by (rewrite Hk, !S_INR; ring). rewrite HI in *.
      assert (Hun : 24 * INR n * u <= 1) by nra.
      assert (Huk' : 24 * IZR k' * u <= 1) by nra.
      pose proof (prec_gt_0 prec). pose proof (prec_lt_emax prec emax).
      assert (Heu : eta <= u) by (unfold underflow_error, unit_roundoff; apply bpow_le; lia).
      assert (Hu24 : u <= / 24) by nra.
      set (W := bpow radix2 (emax - 1)) in *.
      assert (Hb2 : 2 <= W).
      { change 2 with (bpow radix2 1). apply bpow_le. 
        assert (prec <> 1)%Z; [|lia]. intros ->. unfold unit_roundoff in Hu24. assert (EE : bpow radix2 (- (1)) = / 2) by reflexivity. rewrite EE in Hu24. lra. }
      set (M1 := 22 / 10 * IZR k * M + eta). set (M2 := 22 / 10 * IZR k' * M1 + eta).
      assert (HkM : 0 <= IZR k * M) by (apply Rmult_le_pos; lra).
      assert (HD1 : 0 <= IZR k' * (IZR k * M)) by (apply Rmult_le_pos; lra).
      assert (HD2 : IZR k' * (IZR k * M) <= IZR k * (IZR k * M)) by (apply Rmult_le_compat_r; lra).
      assert (HD3 : 2 * (IZR k * M) <= IZR k * (IZR k * M)) by (apply Rmult_le_compat_r; lra).
      assert (HD4 : 10 * (IZR k * (IZR k * M)) <= W) by (replace (10 * (IZR k * (IZR k * M))) with (10 * (IZR k * IZR k) * M) by ring; exact HMO).
      assert (Hke : 0 <= IZR k' * eta <= / 24).
      { split; [apply Rmult_le_pos; lra|]. apply Rle_trans with (IZR k' * u); [apply Rmult_le_compat_l; lra|lra]. }
      assert (HM1 : 0 <= M1) by (unfold M1; lra).
      assert (EM2 : IZR k' * M1 = 22 / 10 * (IZR k' * (IZR k * M)) + IZR k' * eta) by (unfold M1; ring).
      assert (HM2 : 0 <= M2 <= W).
      { unfold M2. replace (22 / 10 * IZR k' * M1) with (22 / 10 * (IZR k' * M1)) by ring. rewrite EM2. lra. }
      set (E1 := 42 / 10 * IZR k * u * M + eta). set (E3 := 42 / 10 * IZR k' * u * M1 + eta + 2 * (IZR k' * E1)).
      assert (HT : forall i, (i < d)%nat -> near prec emax (growth u eta M2 n) (growth u eta M2 n - M2 + E3)
        (coord d i (gtri (fun _ _ a b => padd (pmul t b) (pmul (ssub s1 t) a)) (dcoefz (S n) (dcoef (S (S n)) pts)) n (Z.of_nat n)))
        (coord d i (f2 (B2R t)))).
      { intros i Hi. rewrite Ef. apply tri_near; try assumption; try apply HM2.
        - intros j Hj.
          assert (Hnth : forall m, (m < length pts)%nat -> coord d i (nth m rp p0) = B2R (coord d i (nth m pts p0)) /\
            is_finite (coord d i (nth m pts p0)) = true /\ Rabs (B2R (coord d i (nth m pts p0))) <= M).
          { intros m Hm. unfold rp. rewrite (nth_indep (map (vreal d) pts) p0 (vreal d p0)) by (rewrite map_length; lia).
            rewrite map_nth, (vreal_coord prec emax). split; [reflexivity|].
            destruct (Hp (nth m pts p0)) as [H1 H2]; [apply nth_In; exact Hm|].
            split; [now apply (vfinite_coord prec emax d)|]. pose proof (H2 i Hi) as H3. rewrite (vreal_coord prec emax) in H3. exact H3. }
          assert (HC : forall j, (0 <= j <= Z.of_nat (S n))%Z ->
            near prec emax M1 E1 (coord d i (dcoef (S (S n)) pts j)) (coord d i (dcoef (S (S n)) rp j))).
          { clear j Hj. intros j Hj. unfold dcoef. fold k. rewrite gcoord_mul, gcoord_sub, coord_mul, coord_sub by exact Hi.
            destruct (Hnth (Z.to_nat (j + 1)) ltac:(lia)) as (Ea & Fa & Ba). destruct (Hnth (Z.to_nat j) ltac:(lia)) as (Eb & Fb & Bb).
            rewrite Ea, Eb. cbn [sofZ smul ssub FO7 ieee_ops R_ops].
            apply coef_near; try assumption; try (unfold k; lia). fold W. lra. }
          unfold dcoefz. fold k'. rewrite gcoord_mul, gcoord_sub, coord_mul, coord_sub by exact Hi.
          apply coef_near2; [unfold k'; lia|exact Huk'|apply HC; lia|apply HC; lia|].
          fold W. replace (4 * IZR k' * M1) with (4 * (IZR k' * M1)) by ring. rewrite EM2. lra.
        - apply (growth_finite prec emax); [apply HM2|exact Hun|apply HM2]. }
      split; [apply (vfinite_coord prec emax d); intros i Hi; apply (HT i Hi)|]. split; [exact HV'|]. split; [exact HV2|].
      intros i Hi. rewrite (vreal_coord prec emax). eapply Rle_trans; [apply (HT i Hi)|].
      pose proof (growth_bound prec emax M2 n (proj1 HM2) Hun) as HG.
      pose proof (derivative2_arith (IZR k) (INR n) M Hk Hn0 HM Hu) as HA. cbv zeta in HA. fold M1 in HA. rewrite <- Hk' in HA.
      fold M2 in HA. fold E1 in HA. fold E3 in HA. lra.
  Qed.
End Float.
