(** Rounding errors of the second derivative of a B-spline curve. *)
From Coq Require Import Reals Lra Lia ZArith QArith List Bool.
From Flocq Require Import Core IEEE754.BinarySingleNaN.
From Verif Require Import Monad MonadFacts Scalar ScalarFacts Spec SpecFacts ModelCurve ModelBezier BezierThms
  ModelBSpline BSplineFacts BSplineThms BSplineThms2 BSplineThms3 Transfer SpecFloat ModelFloat FloatFacts FloatThms FloatThms2 FloatCases FloatRuns FloatDeriv FloatDeriv2.
Import ListNotations.
Local Open Scope R_scope.

(** * The second derivative is the triangle of the quotients of the quotients, in any arithmetic *)
Section Gen.
  Context {T P : Type} {SO : ScalarOps T} {V : PointOps T P}.
  Local Open Scope Z_scope.

  Definition gdcoefz (U : Z -> T) (g : Z -> P) (q k i : Z) : P :=
    pmul (gquot U q k i) (psub (g (i + 1)) (g i)).

  Lemma gbs_coefficients (c : bspline T P) (l : list P) (m N q k : Z) (U : Z -> T) (g : Z -> P) :
    arr l m g -> arr (bs_knots c) N U -> 0 <= q < m -> q <= k + 1 -> q + k < N ->
    (forall x : T, slt s0 x = true -> seq_ x s0 = false) ->
    exists l2, bs_derivative_coefficients c (q - 1) k l = Ok l2 /\
      arr l2 m (fun i => if i <? q then gdcoefz U g q k i else g i).
  Proof.
    intros Hl HU Hq Hk HN Hd0. unfold bs_derivative_coefficients. replace (q - 1 + 1) with q by lia.
    match goal with |- context [for_up 0 q ?B l] =>
      destruct (for_up_inv (fun i0 s => arr s m (fun i => if i <? i0 then gdcoefz U g q k i else g i)) 0 q B l)
        as (s' & Es & Hs') end.
    - lia.
    - eapply arr_ext; [exact Hl|]. intros i Hi. cbv beta. destruct (Z.ltb_spec i 0); [lia|reflexivity].
    - intros i s Hi Hs. rewrite (arr_get _ _ _ (i + k + 1) HU) by lia. rewrite bind_Ok.
      rewrite (arr_get _ _ _ (i + k + 1 - q) HU) by lia. rewrite bind_Ok.
      assert (EA : (if slt s0 (ssub (U (i + k + 1)) (U (i + k + 1 - q)))
        then ddiv (sofZ q) (ssub (U (i + k + 1)) (U (i + k + 1 - q))) else Ok s0) = Ok (gquot U q k i)).
      { unfold gquot. cbv zeta. destruct (slt s0 _) eqn:E; [|reflexivity]. unfold ddiv. rewrite (Hd0 _ E). reflexivity. }
      rewrite EA, bind_Ok. rewrite (arr_get _ _ _ (i + 1) Hs) by lia. rewrite bind_Ok.
      rewrite (arr_get _ _ _ i Hs) by lia. rewrite bind_Ok. cbv beta.
      destruct (Z.ltb_spec (i + 1) i); [lia|]. destruct (Z.ltb_spec i i); [lia|].
      destruct (arr_set s _ _ i (gdcoefz U g q k i) Hs) as (s3 & E3 & HS3); [lia|].
      exists s3. split; [exact E3|]. eapply arr_ext; [exact HS3|]. intros j Hj. cbv beta. unfold fupd.
      destruct (Z.eqb_spec j i) as [->|Hne].
      + destruct (Z.ltb_spec i (i + 1)); [reflexivity|lia].
      + destruct (Z.ltb_spec j i); destruct (Z.ltb_spec j (i + 1)); try lia; reflexivity.
    - exists s'. split; [exact Es|exact Hs'].
  Qed.

  Lemma gbs_deBoor (c : bspline T P) (l2 : list P) (m N q k : Z) (U : Z -> T) (g h : Z -> P) t :
    arr l2 m g -> arr (bs_knots c) N U -> 0 <= q < m -> q <= k -> q + k < N -> q <= bs_degree c ->
    (forall x : T, slt btolT x = true -> seq_ x s0 = false) ->
    (forall i, 0 <= i <= q -> g i = h i) ->
    bs_deBoor c t q k l2 = Ok (gtri (gstep U t q k) h (Z.to_nat q) q).
  Proof.
    intros H2 HU Hq Hk HN Hdeg Hd Hg. unfold bs_deBoor. destruct (Z.ltb_spec 0 q) as [Hpos|Hpos].
    - destruct (arr_alloc t (bs_degree c)) as (bv & Eb & Hb); [lia|]. rewrite Eb, bind_Ok. unfold bs_blossom.
      rewrite (arr_len _ _ _ H2). destruct (Z.leb_spec (q + 1) m); [|lia]. cbn [assert_]. rewrite bind_Ok.
      match goal with |- context [for_up 1 (q + 1) ?O l2] => set (outer := O) end.
      destruct (gtri_loops (gstep U t q k) outer
        (fun r j pts =>
           do u1 <- get (bs_knots c) (j + k + 1 - r);
           do u0 <- get (bs_knots c) (j + k - q);
           do alpha <- (if slt (sofQ (1 # (10 ^ 16)%positive)) (ssub u1 u0) then ddiv (ssub t u0) (ssub u1 u0) else Ok s0);
           do a <- get pts (j - 1);
           do b <- get pts j;
           set pts j (padd (pmul (ssub s1 alpha) a) (pmul alpha b))) l2 m _ q H2) as (l' & E & H').
      + lia.
      + intros r s Hr. unfold outer. rewrite (arr_get _ _ _ (r - 1) Hb) by lia. rewrite bind_Ok. reflexivity.
      + intros r j s g0 Hr Hj Hs. rewrite (arr_get _ _ _ (j + k + 1 - r) HU) by lia. rewrite bind_Ok.
        rewrite (arr_get _ _ _ (j + k - q) HU) by lia. rewrite bind_Ok.
        assert (EA : (if slt (sofQ (1 # (10 ^ 16)%positive)) (ssub (U (j + k + 1 - r)) (U (j + k - q)))
          then ddiv (ssub t (U (j + k - q))) (ssub (U (j + k + 1 - r)) (U (j + k - q))) else Ok s0) = Ok (galpha U t q k r j)).
        { unfold galpha, btolT. cbv zeta.
          destruct (slt _ (ssub (U (j + k + 1 - r)) (U (j + k - q)))) eqn:E; [|reflexivity].
          unfold ddiv. rewrite (Hd _ E). reflexivity. }
        rewrite EA, bind_Ok. rewrite (arr_get _ _ _ (j - 1) Hs) by lia. rewrite bind_Ok.
        rewrite (arr_get _ _ _ j Hs) by lia. now rewrite bind_Ok.
      + rewrite E, bind_Ok. rewrite (arr_get _ _ _ q H') by lia. cbv beta. rewrite Z.leb_refl, Z.min_id. f_equal.
        enough (HH : forall m j, 0 <= j - Z.of_nat m -> j <= q ->
          gtri (gstep U t q k) g m j = gtri (gstep U t q k) h m j) by (apply HH; lia).
        induction m0 as [|m0 IH]; intros j Hj1 Hj2; cbn [gtri].
        * apply Hg. lia.
        * rewrite (IH (j - 1)), (IH j) by lia. reflexivity.
    - rewrite bind_Ok. rewrite (arr_get _ _ _ _ H2) by lia. replace (Z.to_nat q) with O by lia. cbn [gtri].
      f_equal. apply Hg. lia.
  Qed.

  Lemma bs_2nd_derivative_gtri (c : bspline T P) n p k U cp t :
    arr (bs_pts c) n cp -> arr (bs_knots c) (n + p + 1) U -> 2 <= p < n -> bs_periodic c = false ->
    (forall x : T, slt btolT x = true -> seq_ x s0 = false) -> (forall x : T, slt s0 x = true -> seq_ x s0 = false) ->
    locate_span c t = Ok k -> p <= k < n ->
    bs_evaluate_2nd_derivative c t =
      Ok (gtri (gstep U t (p - 2) k) (gdcoefz U (gdcoef U cp p k) (p - 1) k) (Z.to_nat (p - 2)) (p - 2)).
  Proof.
    intros Hc HU Hp Hper Hd Hd0 Hl Hk. unfold bs_evaluate_2nd_derivative, bs_validate, bs_unwrap.
    assert (Hdeg : bs_degree c = p).
    { unfold bs_degree. rewrite (arr_len _ _ _ HU), (arr_len _ _ _ Hc). lia. }
    rewrite Hdeg, Hper. destruct (Z.ltb_spec p 0); [lia|]. rewrite !bind_Ok. cbv zeta. rewrite Hl, bind_Ok.
    destruct (Z.leb_spec 0 p); [|lia]. cbn [assert_]. rewrite bind_Ok.
    rewrite (arr_len _ _ _ HU), (arr_len _ _ _ Hc), Z.eqb_refl. cbn [assert_]. rewrite bind_Ok.
    destruct (Z.leb_spec p 1); [lia|].
    destruct (gspan_points c n p k cp Hc ltac:(lia) Hk) as (l & El & Hl'). rewrite El, bind_Ok.
    destruct (gbs_coefficients c l _ _ p k U _ Hl' HU ltac:(lia) ltac:(lia) ltac:(lia) Hd0) as (l1 & E1 & HL1).
    rewrite E1, bind_Ok. replace (p - 2) with (p - 1 - 1) by lia.
    destruct (gbs_coefficients c l1 _ _ (p - 1) k U _ HL1 HU ltac:(lia) ltac:(lia) ltac:(lia) Hd0) as (l2 & E2 & HL2).
    rewrite E2, bind_Ok.
    apply (gbs_deBoor c l2 _ _ _ _ U _ _ t HL2 HU); try lia; [exact Hd|].
    intros i Hi. cbv beta. destruct (Z.ltb_spec i (p - 1)); [|lia]. unfold gdcoefz, gdcoef.
    destruct (Z.ltb_spec (i + 1) p); [|lia]. destruct (Z.ltb_spec i p); [|lia]. reflexivity.
  Qed.
End Gen.

Section Float.
  Context (prec emax : Z) {Hprec : Prec_gt_0 prec} {Hmax : Prec_lt_emax prec emax}.
  Notation num := (binary_float prec emax).
  Notation u := (unit_roundoff prec).
  Notation eta := (underflow_error prec emax).
  Notation Omega := (bpow radix2 emax).
  Local Instance FOe : ScalarOps num := ieee_ops prec emax.

  (** A difference quotient of values with an error. *)
  Lemma quot_near2 (k : Z) (x y v0 v1 : num) M E h a b B : (1 <= k)%Z -> 24 * IZR k * u <= 1 ->
    near prec emax M E x a -> near prec emax M E y b -> Rabs a <= B -> Rabs b <= B ->
    is_finite v0 = true -> is_finite v1 = true ->
    Rabs (B2R v0) <= bpow radix2 (emax - 2) -> Rabs (B2R v1) <= bpow radix2 (emax - 2) ->
    0 < h <= B2R v1 - B2R v0 -> M <= bpow radix2 (emax - 2) -> IZR k / h <= bpow radix2 (emax - 2) ->
    2 * (IZR k / h) * M <= bpow radix2 (emax - 2) ->
    let L := 2 * (IZR k / h) * M in
    let w := Bdiv mode_NE (@bofZ prec emax _ _ k) (Bminus mode_NE v1 v0) in
    0 < B2R (Bminus mode_NE v1 v0) /\ is_finite (Bminus mode_NE v1 v0) = true /\
    near prec emax (12 / 10 * L + (1 + 22 / 10 * M) * eta) (44 / 10 * u * L + (1 + 22 / 10 * M) * eta + 2 * (IZR k / h) * E)
      (Bmult mode_NE w (Bminus mode_NE x y)) (IZR k / (B2R v1 - B2R v0) * (a - b)) /\
    Rabs (IZR k / (B2R v1 - B2R v0) * (a - b)) <= 2 * (IZR k / h) * B.
  Proof.
    intros Hk Hku (Fx & Hx & Ex) (Fy & Hy & Ey) HaB HbB F0 F1 B0 B1 Hh HMO HKO HLO L w.
    destruct (quot_near prec emax k x y v0 v1 M h Hk Hku Fx Fy Hx Hy F0 F1 B0 B1 Hh HMO HKO HLO) as (Dp & Df & QN & QB).
    cbv zeta in QN, QB. fold L in QN, QB. fold w in QN. split; [exact Dp|]. split; [exact Df|].
    assert (Hk1 : 1 <= IZR k) by (apply (IZR_le 1); exact Hk).
    set (K := IZR k / (B2R v1 - B2R v0)) in *.
    assert (HK0 : 0 <= K) by (unfold K, Rdiv; apply Rmult_le_pos; [lra|apply Rlt_le, Rinv_0_lt_compat; lra]).
    assert (HKh : K <= IZR k / h) by (unfold K, Rdiv; apply Rmult_le_compat_l; [lra|]; apply Rinv_le_contravar; lra).
    assert (Hab : Rabs (a - b) <= 2 * B) by (apply Rabs_le_inv in HaB; apply Rabs_le_inv in HbB; apply Rabs_le; lra).
    pose proof (Rabs_pos (a - b)).
    split.
    - destruct QN as (Fm & Am & Em). split; [exact Fm|]. split; [exact Am|]. set (m := Bmult _ w _) in *.
      replace (B2R m - K * (a - b)) with ((B2R m - K * (B2R x - B2R y)) + K * ((B2R x - a) - (B2R y - b))) by ring.
      eapply Rle_trans; [apply Rabs_triang|]. apply Rplus_le_compat; [exact Em|].
      assert (HE : Rabs ((B2R x - a) - (B2R y - b)) <= 2 * E) by (apply Rabs_le_inv in Ex; apply Rabs_le_inv in Ey; apply Rabs_le; lra).
      rewrite Rabs_mult, (Rabs_pos_eq K) by lra. replace (2 * (IZR k / h) * E) with (IZR k / h * (2 * E)) by ring.
      apply Rmult_le_compat; auto using Rabs_pos.
    - rewrite Rabs_mult, (Rabs_pos_eq K) by lra. replace (2 * (IZR k / h) * B) with (IZR k / h * (2 * B)) by ring.
      apply Rmult_le_compat; auto.
  Qed.

  (** The magnitudes and errors of the two rounds of quotients. *)
  Section Arith.
    Context (K M : R) (HK : 0 <= K) (HM : 0 <= M) (Hu : u <= / 24).
    Let Y := (1 + K) * (1 + K) * (1 + M).
    Let A := 12 / 10 * (2 * K * M) + (1 + 22 / 10 * M) * eta.
    Let E := 44 / 10 * u * (2 * K * M) + (1 + 22 / 10 * M) * eta.
    Let A2 := 12 / 10 * (2 * K * A) + (1 + 22 / 10 * A) * eta.
    Let E2 := 44 / 10 * u * (2 * K * A) + (1 + 22 / 10 * A) * eta + 2 * K * E.

    Lemma arith2 : 0 <= A /\ 0 <= E /\ 0 <= A2 /\ 0 <= E2 /\ 2 * K * M <= A /\ 2 * K * (2 * K * M) <= A2 /\
      M <= Y /\ K <= Y /\ 2 * K * M <= Y /\ A <= 6 * Y /\ 2 * K * A <= 6 * Y /\ A2 <= 12 * Y /\
      14 * u * A2 + 2 * eta * A2 + 3 * eta <= 81 * u * (K * K * M) + 12 * Y * eta /\
      E2 <= 81 * u * (K * K * M) + 12 * Y * eta.
    Proof.
      pose proof (u_pos prec) as Hu0. pose proof (eta_pos prec emax) as He.
      pose proof (prec_gt_0 prec). pose proof (prec_lt_emax prec emax).
      assert (Heu : eta <= u) by (unfold underflow_error, unit_roundoff; apply bpow_le; lia).
      assert (HKM : 0 <= K * M) by (apply Rmult_le_pos; lra).
      assert (HKK : 0 <= K * K) by (apply Rmult_le_pos; lra).
      set (N := K * K * M). assert (HN : 0 <= N) by (unfold N; apply Rmult_le_pos; lra).
      assert (EY : Y = 1 + 2 * K + K * K + M + 2 * (K * M) + N) by (unfold Y, N; ring).
      (* monomials times eta *)
      assert (P : forall x, 0 <= x -> 0 <= x * eta <= / 24 * x) by (intros x Hx; split; nra).
      assert (Q : forall x, 0 <= x -> 0 <= u * x <= / 24 * x) by (intros x Hx; split; nra).
      pose proof (P 1 ltac:(lra)) as P1. pose proof (P K HK) as PK. pose proof (P M HM) as PM. pose proof (P _ HKM) as PKM.
      pose proof (P _ HN) as PN. pose proof (P _ HKK) as PKK.
      pose proof (P _ (proj1 P1)) as PP1. pose proof (P _ (proj1 PK)) as PPK. pose proof (P _ (proj1 PM)) as PPM. pose proof (P _ (proj1 PKM)) as PPKM.
      pose proof (P _ (proj1 PP1)) as PPP1. pose proof (P _ (proj1 PPM)) as PPPM.
      pose proof (Q _ (proj1 P1)) as Q1. pose proof (Q _ (proj1 PK)) as QK. pose proof (Q _ (proj1 PKM)) as QKM. pose proof (Q _ (proj1 PM)) as QM.
      pose proof (Q _ (proj1 PP1)) as QP1. pose proof (Q _ (proj1 PPM)) as QPM.
      pose proof (Q _ HN) as QN. pose proof (Q _ HKM) as QKM0.
      assert (EA : A = 24 / 10 * (K * M) + 1 * eta + 22 / 10 * (M * eta)) by (unfold A; field).
      assert (EE : E = 88 / 10 * (u * (K * M)) + 1 * eta + 22 / 10 * (M * eta)) by (unfold E; field).
      assert (EKA : K * A = 24 / 10 * N + K * eta + 22 / 10 * (K * M * eta)) by (rewrite EA; unfold N; field).
      assert (EKE : K * E = 88 / 10 * (u * N) + K * eta + 22 / 10 * (K * M * eta)) by (rewrite EE; unfold N; field).
      assert (EAe : A * eta = 24 / 10 * (K * M * eta) + 1 * eta * eta + 22 / 10 * (M * eta * eta)) by (rewrite EA; field).
      assert (EA2 : A2 = 24 / 10 * (K * A) + 1 * eta + 22 / 10 * (A * eta)) by (unfold A2; field).
      rewrite EKA, EAe in EA2.
      assert (EE2 : E2 = 88 / 10 * (u * (K * A)) + 1 * eta + 22 / 10 * (A * eta) + 2 * (K * E)) by (unfold E2; field).
      rewrite EKE, EAe in EE2.
      assert (EuKA : u * (K * A) = 24 / 10 * (u * N) + u * (K * eta) + 22 / 10 * (u * (K * M * eta))) by (rewrite EKA; field).
      rewrite EuKA in EE2.
      assert (EuA2 : u * A2 = 576 / 100 * (u * N) + 24 / 10 * (u * (K * eta)) + 528 / 100 * (u * (K * M * eta)) + u * (1 * eta)
         + 528 / 100 * (u * (K * M * eta)) + 22 / 10 * (u * (1 * eta * eta)) + 484 / 100 * (u * (M * eta * eta))) by (rewrite EA2; field).
      assert (EeA2 : A2 * eta = 576 / 100 * (N * eta) + 24 / 10 * (K * eta * eta) + 528 / 100 * (K * M * eta * eta) + 1 * eta * eta
         + 528 / 100 * (K * M * eta * eta) + 22 / 10 * (1 * eta * eta * eta) + 484 / 100 * (M * eta * eta * eta)) by (rewrite EA2; field).
      assert (EYe : Y * eta = 1 * eta + 2 * (K * eta) + K * K * eta + M * eta + 2 * (K * M * eta) + N * eta) by (rewrite EY; field).
      replace (2 * K * M) with (2 * (K * M)) by ring. replace (2 * K * (2 * (K * M))) with (4 * N) by (unfold N; ring).
      replace (2 * K * A) with (2 * (K * A)) by ring.
      replace (14 * u * A2) with (14 * (u * A2)) by ring. replace (2 * eta * A2) with (2 * (A2 * eta)) by ring.
      replace (81 * u * N) with (81 * (u * N)) by ring. replace (12 * Y * eta) with (12 * (Y * eta)) by ring.
      rewrite EuA2, EeA2, EYe, EKA, EA2, EE2, EA, EE, EY.
      clear P Q EA EE EKA EKE EAe EA2 EE2 EuKA EuA2 EeA2 EYe EY.
      repeat split; lra.
    Qed.
  End Arith.
  Lemma bspline_2nd_derivative_error d (c : bspline num (vec num d)) (t : num) M h :
    let knots := map B2R (bs_knots c) in
    let rp := map (vreal d) (bs_pts c) in
    let p := bspline_degree rp knots in
    let K := INR p / h in
    let Y := (1 + K) * (1 + K) * (1 + M) in
    tol_ok prec emax ->
    valid_bspline rp knots -> / IZR (10 ^ 15) <= h -> knots_apart h knots -> bs_periodic c = false ->
    (forall x, In x (bs_knots c) -> is_finite x = true /\ Rabs (B2R x) <= bpow radix2 (emax - 2)) ->
    0 <= M -> 6 * Y <= bpow radix2 (emax - 2) ->
    24 * INR p * u <= 1 ->
    (forall a, In a (bs_pts c) -> vfinite d a /\ forall i, (i < d)%nat -> Rabs (coord d i (vreal d a)) <= M) ->
    is_finite t = true -> lower_of rp knots <= B2R t <= upper_of rp knots ->
    (nth p knots 0 < nth (p + 1) knots 0 \/ lower_of rp knots < B2R t) ->
    exists (q : vec num d) (k : nat) (f f' f'' : R -> vec R d),
      bs_evaluate_2nd_derivative c t = Ok q /\ vfinite d q /\
      span_set knots (upper_of rp knots) k (B2R t) /\ nth k knots 0 < nth (k + 1) knots 0 /\
      (forall x, span_set knots (upper_of rp knots) k x -> (nth p knots 0 < nth (p + 1) knots 0 \/ lower_of rp knots < x) ->
         lower_of rp knots <= x <= upper_of rp knots /\ bspline_curve rp knots x = f x) /\
      (forall x, vderiv f x (f' x)) /\ (forall x, vderiv f' x (f'' x)) /\
      forall i, (i < d)%nat ->
        Rabs (coord d i (vreal d q) - coord d i (f'' (B2R t))) <= INR p * (81 * u * (K * K * M) + 12 * Y * eta).
  Proof.
    intros knots rp p K Y Htol Hv Hh Ha Hper HK HM HYO Hu HP Ft Ht Hs.
    pose (c' := bsreal prec emax c).
    assert (Hlen : length rp = length (bs_pts c)) by apply map_length.
    assert (H15 : 0 < / IZR (10 ^ 15)) by (apply Rinv_0_lt_compat, IZR_lt; reflexivity).
    assert (H16 : / IZR (10 ^ 16) < / IZR (10 ^ 15)).
    { apply Rinv_lt_contravar; [apply Rmult_lt_0_compat; apply IZR_lt; reflexivity|apply IZR_lt; reflexivity]. }
    assert (Ha16 : knots_apart (/ IZR (10 ^ 16)) knots).
    { intros i j Hij Hlt. pose proof (Ha i j Hij Hlt). lra. }
    destruct (bspline_derivs c' (B2R t) Hv Ha16 Hper Ht Hs) as (k0 & f & f' & f2 & Hk0 & Hspan & Hne & Hev & HD & HD2).
    change (bs_pts c') with rp in *. change (bs_knots c') with knots in *.
    fold p in Hk0, Hev.
    destruct (Hev (B2R t) Hspan Hs) as (_ & _ & Ed).
    pose proof (vb_pts _ _ Hv) as Hpn. fold p in Hpn.
    assert (HkN : length (bs_knots c) = (length (bs_pts c) + p + 1)%nat).
    { pose proof (vb_len _ _ Hv) as V1. unfold p, bspline_degree. unfold knots in *. rewrite map_length in *. lia. }
    pose proof (u_pos prec) as Hu0. pose proof (eta_pos prec emax) as He.
    assert (Hdeg : bs_degree c = Z.of_nat p) by (unfold bs_degree, zlen; lia).
    assert (HF : forall x, span_set knots (upper_of rp knots) k0 x -> (nth p knots 0 < nth (p + 1) knots 0 \/ lower_of rp knots < x) ->
         lower_of rp knots <= x <= upper_of rp knots /\ bspline_curve rp knots x = f x).
    { intros x Hx Hx2. assert (Hr : lower_of rp knots <= x <= upper_of rp knots).
      { pose proof (vb_sorted _ _ Hv) as Hso.
        assert (lower_of rp knots <= nth k0 knots 0).
        { unfold lower_of. fold p. apply Hso. unfold knots. rewrite map_length. lia. }
        assert (nth (k0 + 1) knots 0 <= upper_of rp knots).
        { unfold upper_of. apply Hso. unfold knots. rewrite map_length. lia. }
        destruct Hx as [Hx|[E Hx]]; lra. }
      split; [exact Hr|]. destruct (Hev x Hx Hx2) as (E1 & _).
      rewrite (bspline_eval c' x) in E1.
      - change (bs_pts c') with rp in E1. change (bs_knots c') with knots in E1. congruence.
      - exact Hv.
      - exact Ha16.
      - exact Hper.
      - exact Hr.
      - destruct Hx2 as [Hx2|Hx2]; [left; left; exact Hx2|right; exact Hx2]. }
    (* location *)
    destruct (bspline_locate c' (B2R t) Hv) as (k & Ek & Hk & _ & Hk3).
    change (bs_pts c') with rp in *. change (bs_knots c') with knots in *. fold p in Hk, Hk3.
    destruct Hk3 as (Hk1 & Hk2 & _).
    { destruct Hs as [Hs|Hs]; [left; exact Hs|right; exact Hs]. }
    { apply Ht. }
    specialize (Hk2 ltac:(unfold upper_of in Ht; apply Ht)).
    assert (El : locate_span c t = Ok (Z.of_nat k)).
    { pose proof (flocate_span prec emax c t (fun x Hx => proj1 (HK x Hx)) Ft) as HR. fold c' in HR. rewrite Ek in HR.
      destruct (locate_span c t) eqn:EL; simpl in HR; try contradiction. now subst. }
    set (n := Z.of_nat (length (bs_pts c))).
    destruct (le_lt_dec p 1) as [Ep|Ep].
    { (* piecewise constant or linear *)
      assert (Hz0 : ((Z.of_nat p <? 0)%Z = false) /\ ((0 <=? Z.of_nat p)%Z = true) /\ ((Z.of_nat p <=? 1)%Z = true)).
      { split; [apply Z.ltb_ge; lia|]. split; apply Z.leb_le; lia. }
      destruct Hz0 as (Z0 & Z1 & Z2).
      exists p0, k0, f, f', f2.
      assert (Hz : forall i, (i < d)%nat -> is_finite (coord d i (p0 : vec num d)) = true /\ B2R (coord d i (p0 : vec num d)) = 0).
      { clear. intros i. revert i. induction d as [|d IH]; intros i Hi; [lia|]. destruct i; [split; reflexivity|]. apply (IH i). lia. }
      split.
      { unfold bs_evaluate_2nd_derivative, bs_validate, bs_unwrap. rewrite Hdeg, Hper, Z0. rewrite !bind_Ok. cbv zeta. rewrite El, !bind_Ok.
        rewrite Z1, Z2. cbn [assert_]. rewrite bind_Ok.
        replace (zlen (bs_knots c) =? zlen (bs_pts c) + Z.of_nat p + 1)%Z with true; [reflexivity|].
        symmetry. apply Z.eqb_eq. unfold zlen. lia. }
      split; [apply (vfinite_coord prec emax d p0); intros i Hi; apply (Hz i Hi)|].
      split; [exact Hspan|]. split; [exact Hne|]. split; [exact HF|]. split; [exact HD|]. split; [exact HD2|].
      intros i Hi. rewrite (vreal_coord prec emax). pose proof (proj2 (Hz i Hi)) as Hz2.
      match goal with |- Rabs (?x - _) <= _ => replace x with 0 by (symmetry; exact Hz2) end.
      assert (Ef : f2 (B2R t) = p0).
      { assert (Hdeg' : bs_degree c' = Z.of_nat p).
        { unfold bs_degree, zlen. change (bs_pts c') with rp. change (bs_knots c') with knots. rewrite Hlen. unfold knots. rewrite map_length. lia. }
        unfold bs_evaluate_2nd_derivative, bs_validate, bs_unwrap in Ed. rewrite Hdeg' in Ed. change (bs_periodic c') with (bs_periodic c) in Ed. rewrite Hper, Z0 in Ed.
        rewrite !bind_Ok in Ed. cbv zeta in Ed. rewrite Ek, !bind_Ok in Ed. rewrite Z1, Z2 in Ed. cbn [assert_] in Ed. rewrite bind_Ok in Ed.
        replace (zlen (bs_knots c') =? zlen (bs_pts c') + Z.of_nat p + 1)%Z with true in Ed.
        - assert (Ed2 : Ok (p0 : vec R d) = Ok (f2 (B2R t))) by exact Ed. congruence.
        - symmetry. apply Z.eqb_eq. unfold zlen. change (bs_pts c') with rp. change (bs_knots c') with knots. rewrite Hlen. unfold knots. rewrite map_length. lia. }
      rewrite Ef, coord_0 by exact Hi. rewrite Rminus_0_r, Rabs_R0.
      assert (HK0 : 0 <= K) by (unfold K, Rdiv; apply Rmult_le_pos; [apply pos_INR|apply Rlt_le, Rinv_0_lt_compat; lra]).
      apply Rmult_le_pos; [apply pos_INR|]. apply Rplus_le_le_0_compat.
      - apply Rmult_le_pos; [lra|]. apply Rmult_le_pos; [apply Rmult_le_pos; lra|lra].
      - apply Rmult_le_pos; [|lra]. apply Rmult_le_pos; [lra|]. unfold Y. apply Rmult_le_pos; [apply Rmult_le_pos; lra|lra]. }
    (* both runs are triangles *)
    set (cp := fun i : Z => nth (Z.to_nat i) (bs_pts c) p0).
    set (U := fun i : Z => nth (Z.to_nat i) (bs_knots c) s0).
    set (cp' := fun i : Z => nth (Z.to_nat i) rp p0).
    assert (Hpts : arr (bs_pts c) n cp) by apply arr_nth.
    assert (Hkn : arr (bs_knots c) (n + Z.of_nat p + 1) U).
    { replace (n + Z.of_nat p + 1)%Z with (zlen (bs_knots c)) by (unfold zlen, n; lia). apply arr_nth. }
    assert (Hpts' : arr (bs_pts c') n cp').
    { change (bs_pts c') with rp. replace n with (zlen rp) by (unfold zlen, n; lia). apply arr_nth. }
    assert (EU : forall i, nth i knots 0 = B2R (nth i (bs_knots c) s0)).
    { intros i. unfold knots. change 0 with (B2R (@s0 num FOe)). apply map_nth. }
    assert (Hkn' : arr (bs_knots c') (n + Z.of_nat p + 1) (fun i => B2R (U i))).
    { change (bs_knots c') with knots. replace (n + Z.of_nat p + 1)%Z with (zlen knots) by (unfold zlen, n, knots; rewrite map_length; lia).
      eapply arr_ext; [apply (arr_nth knots s0)|]. intros i Hi. cbv beta. apply EU. }
    assert (HdR : forall x : R, slt btolT x = true -> seq_ x s0 = false).
    { intros x Hx. unfold btolT in Hx. pose proof btol_pos as Hb. unfold btol in Hb.
      generalize dependent (sofQ (1 # (10 ^ 16)%positive) : R). intros tol Hx Hb. cbn [slt seq_ s0 R_ops] in *.
      destruct (Rltb_spec tol x); [|discriminate]. destruct (Reqb_spec x 0); [lra|reflexivity]. }
    rewrite (bs_2nd_derivative_gtri c' n (Z.of_nat p) (Z.of_nat k) _ _ (B2R t) Hpts' Hkn' ltac:(unfold n; lia) Hper
               HdR Rpos_nonzero Ek ltac:(unfold n; lia)) in Ed.
    exists (gtri (gstep U t (Z.of_nat p - 2) (Z.of_nat k)) (gdcoefz U (gdcoef U cp (Z.of_nat p) (Z.of_nat k)) (Z.of_nat p - 1) (Z.of_nat k)) (Z.to_nat (Z.of_nat p - 2)) (Z.of_nat p - 2)), k0, f, f', f2.
    split.
    { apply (bs_2nd_derivative_gtri c n (Z.of_nat p) (Z.of_nat k) _ _ t Hpts Hkn ltac:(unfold n; lia) Hper
               (fdiff_nonzero prec emax Htol) (fpos_nonzero prec emax) El ltac:(unfold n; lia)). }
    assert (Ef : f2 (B2R t) = gtri (gstep (fun i => B2R (U i)) (B2R t) (Z.of_nat p - 2) (Z.of_nat k))
       (gdcoefz (fun i => B2R (U i)) (gdcoef (fun i => B2R (U i)) cp' (Z.of_nat p) (Z.of_nat k)) (Z.of_nat p - 1) (Z.of_nat k)) (Z.to_nat (Z.of_nat p - 2)) (Z.of_nat p - 2)) by congruence.
    clear Ed. set (q := (p - 2)%nat). set (k1 := (Z.of_nat p - 1)%Z) in *. replace (Z.of_nat p - 2)%Z with (Z.of_nat q) in * by (unfold q; lia). rewrite Nat2Z.id in *.
    assert (Hk' : IZR (Z.of_nat p) = INR p) by (now rewrite INR_IZR_INZ).
    assert (Hp1 : 2 <= INR p) by (apply (le_INR 2); lia).
    assert (Hk1' : IZR k1 = INR p - 1) by (unfold k1; rewrite minus_IZR, Hk'; ring).
    assert (Hiq : INR p = INR q + 2) by (replace 2 with (INR 2) by (simpl; ring); rewrite <- plus_INR; f_equal; unfold q; lia).
    pose proof (pos_INR q) as Hq0.
    assert (Huq : 24 * INR q * u <= 1) by nra.
    assert (Huk1 : 24 * IZR k1 * u <= 1) by nra.
    assert (Hu24 : u <= / 24) by nra.
    assert (Hih : 0 < / h) by (apply Rinv_0_lt_compat; lra).
    assert (HK0 : 0 <= K) by (unfold K, Rdiv; nra).
    assert (HK1 : 0 <= IZR k1 / h <= K) by (unfold K, Rdiv; rewrite Hk1'; split; nra).
    pose proof (arith2 K M HK0 HM Hu24) as HAr. cbv zeta in HAr. fold Y in HAr.
    set (A := 12 / 10 * (2 * K * M) + (1 + 22 / 10 * M) * eta) in *.
    set (E := 44 / 10 * u * (2 * K * M) + (1 + 22 / 10 * M) * eta) in *.
    set (A2 := 12 / 10 * (2 * K * A) + (1 + 22 / 10 * A) * eta) in *.
    set (E2 := 44 / 10 * u * (2 * K * A) + (1 + 22 / 10 * A) * eta + 2 * K * E) in *.
    destruct HAr as (HA0 & HE0 & HA20 & HE20 & HLA & HLA2 & HMY & HKY & HLY & HAY & HKAY & HA2Y & HB1 & HB2).
    assert (HW2 : bpow radix2 (emax - 1) = 2 * bpow radix2 (emax - 2)).
    { replace (emax - 1)%Z with (1 + (emax - 2))%Z by lia. rewrite bpow_plus. reflexivity. }
    assert (HY0 : 0 <= Y) by lra.
    assert (HUr : forall m, (0 <= m < n + Z.of_nat p + 1)%Z -> is_finite (U m) = true /\ Rabs (B2R (U m)) <= bpow radix2 (emax - 2)).
    { intros m Hm. assert (HI : In (U m) (bs_knots c)) by (apply nth_In; unfold n in Hm; lia). apply (HK _ HI). }
    assert (Hgap : forall a b, (0 <= a <= Z.of_nat k)%Z -> (Z.of_nat k + 1 <= b < n + Z.of_nat p + 1)%Z ->
      B2R (U a) <= B2R t <= B2R (U b) /\ h < B2R (U b) - B2R (U a)).
    { intros a b Ha1 Hb1. pose proof (vb_sorted _ _ Hv) as Hso. unfold U. rewrite <- !EU.
      assert (G1 : nth (Z.to_nat a) knots 0 <= nth k knots 0).
      { apply Hso. unfold knots. rewrite map_length. unfold n in *. lia. }
      assert (G2 : nth (k + 1) knots 0 <= nth (Z.to_nat b) knots 0).
      { apply Hso. unfold knots. rewrite map_length. unfold n in *. lia. }
      split; [lra|]. apply Ha; [unfold knots; rewrite map_length; unfold n in *; lia|lra]. }
    assert (Hslt : forall v1 v0 : num, 0 < B2R (Bminus mode_NE v1 v0) -> is_finite (Bminus mode_NE v1 v0) = true ->
      slt (s0 : num) (ssub v1 v0) = true).
    { intros v1 v0 Dp Df. cbn [slt ssub s0 FOe ieee_ops]. rewrite Bltb_correct; [|reflexivity|exact Df]. apply Rlt_bool_true. simpl. exact Dp. }
    assert (HsltR : forall v1 v0 : R, 0 < v1 - v0 -> slt (s0 : R) (ssub v1 v0) = true).
    { intros v1 v0 Hd. cbn [slt ssub s0 R_ops]. destruct (Rltb_spec 0 (v1 - v0)); [reflexivity|lra]. }
    assert (HT : forall i, (i < d)%nat -> near prec emax (growth u eta A2 q) (growth u eta A2 q - A2 + E2 + 2 * INR q * (5 * u + eta) * A2)
        (coord d i (gtri (gstep U t (Z.of_nat q) (Z.of_nat k)) (gdcoefz U (gdcoef U cp (Z.of_nat p) (Z.of_nat k)) k1 (Z.of_nat k)) q (Z.of_nat q)))
        (coord d i (f2 (B2R t)))).
    { intros i Hi. rewrite Ef. apply deboor_near; try assumption.
      - unfold q. lia.
      - intros j Hj. apply HUr. unfold n, q in *. lia.
      - intros a b Ha1 Hb1. destruct (Hgap a b) as [G1 G2]; [unfold q in *; lia|unfold n, q in *; lia|]. split; [exact G1|lra].
      - intros j0 Hj0.
        assert (Hnth : forall m, (m < length (bs_pts c))%nat -> coord d i (nth m rp p0) = B2R (coord d i (nth m (bs_pts c) p0)) /\
          is_finite (coord d i (nth m (bs_pts c) p0)) = true /\ Rabs (B2R (coord d i (nth m (bs_pts c) p0))) <= M).
        { intros m Hm. unfold rp. rewrite (nth_indep (map (vreal d) (bs_pts c)) p0 (vreal d p0)) by (rewrite map_length; lia).
          rewrite map_nth, (vreal_coord prec emax). split; [reflexivity|].
          destruct (HP (nth m (bs_pts c) p0)) as [H1 H2]; [apply nth_In; exact Hm|].
          split; [now apply (vfinite_coord prec emax d)|]. pose proof (H2 i Hi) as H3. rewrite (vreal_coord prec emax) in H3. exact H3. }
        assert (H1st : forall j, (0 <= j <= Z.of_nat q + 1)%Z ->
          near prec emax A E (coord d i (gdcoef U cp (Z.of_nat p) (Z.of_nat k) j)) (coord d i (gdcoef (fun i => B2R (U i)) cp' (Z.of_nat p) (Z.of_nat k) j)) /\
          Rabs (coord d i (gdcoef (fun i => B2R (U i)) cp' (Z.of_nat p) (Z.of_nat k) j)) <= 2 * K * M).
        { intros j Hj. unfold gdcoef. rewrite gcoord_mul, gcoord_sub, coord_mul, coord_sub by exact Hi.
          unfold cp, cp'.
          destruct (Hnth (Z.to_nat (Z.of_nat k - Z.of_nat p + (j + 1))) ltac:(unfold q in *; lia)) as (Eca & Fa & Ba).
          destruct (Hnth (Z.to_nat (Z.of_nat k - Z.of_nat p + j)) ltac:(unfold q in *; lia)) as (Ecb & Fb & Bb).
          rewrite Eca, Ecb. unfold gquot.
          set (i1 := (j + Z.of_nat k + 1)%Z). set (i0 := (i1 - Z.of_nat p)%Z).
          destruct (HUr i1 ltac:(unfold i1, n, q in *; lia)) as [F1 B1]. destruct (HUr i0 ltac:(unfold i0, i1, n, q in *; lia)) as [F0 B0].
          destruct (Hgap i0 i1) as [_ G2]; [unfold i0, i1, n, q in *; lia|unfold i1, n, q in *; lia|].
          destruct (quot_near prec emax (Z.of_nat p) _ _ (U i0) (U i1) M h ltac:(lia) ltac:(rewrite Hk'; exact Hu) Fa Fb Ba Bb F0 F1 B0 B1
            ltac:(lra) ltac:(lra) ltac:(rewrite Hk'; fold K; lra) ltac:(rewrite Hk'; fold K; lra)) as (Dp & Df & QN & QB).
          rewrite Hk' in QN, QB. fold K in QN, QB. fold A in QN. fold E in QN.
          rewrite (Hslt _ _ Dp Df). rewrite (HsltR (B2R (U i1)) (B2R (U i0)) ltac:(lra)).
          cbn [sdiv ssub sofZ R_ops]. rewrite Hk'. split; [exact QN|exact QB]. }
        destruct (H1st (j0 + 1)%Z ltac:(lia)) as [NA BA]. destruct (H1st j0 ltac:(lia)) as [NB BB].
        unfold gdcoefz. rewrite gcoord_mul, gcoord_sub, coord_mul, coord_sub by exact Hi. unfold gquot.
        set (i1 := (j0 + Z.of_nat k + 1)%Z). set (i0 := (i1 - k1)%Z).
        destruct (HUr i1 ltac:(unfold i1, n, q in *; lia)) as [F1 B1]. destruct (HUr i0 ltac:(unfold i0, i1, k1, n, q in *; lia)) as [F0 B0].
        destruct (Hgap i0 i1) as [_ G2]; [unfold i0, i1, k1, n, q in *; lia|unfold i1, n, q in *; lia|].
        assert (HKA : 2 * (IZR k1 / h) * A <= 2 * K * A) by (apply Rmult_le_compat_r; lra).
        destruct (quot_near2 k1 _ _ (U i0) (U i1) A E h _ _ (2 * K * M) ltac:(unfold k1; lia) Huk1 NA NB BA BB F0 F1 B0 B1
          ltac:(lra) ltac:(lra) ltac:(lra) ltac:(lra)) as (Dp & Df & QN & QB).
        rewrite (Hslt _ _ Dp Df). rewrite (HsltR (B2R (U i1)) (B2R (U i0)) ltac:(lra)).
        assert (HKE : 2 * (IZR k1 / h) * E <= 2 * K * E) by (apply Rmult_le_compat_r; lra).
        assert (HLL : 2 * (IZR k1 / h) * (2 * K * M) <= 2 * K * (2 * K * M)).
        { apply Rmult_le_compat_r; [|lra]. apply Rmult_le_pos; lra. }
        assert (HuKA : 44 / 10 * u * (2 * (IZR k1 / h) * A) <= 44 / 10 * u * (2 * K * A)) by (apply Rmult_le_compat_l; lra).
        cbn [sdiv ssub sofZ R_ops]. split; [|lra].
        eapply near_weaken; [| |exact QN]; unfold A2, E2; lra.
      - apply (growth_finite prec emax); [exact HA20|exact Huq|lra]. }
    split; [apply (vfinite_coord prec emax d); intros i Hi; apply (HT i Hi)|].
    split; [exact Hspan|]. split; [exact Hne|]. split; [exact HF|]. split; [exact HD|]. split; [exact HD2|].
    intros i Hi. rewrite (vreal_coord prec emax). eapply Rle_trans; [apply (HT i Hi)|].
    pose proof (growth_bound prec emax A2 q HA20 Huq) as HG. rewrite Hiq.
    set (X := 81 * u * (K * K * M) + 12 * Y * eta) in *.
    assert (INR q * (14 * u * A2 + 2 * eta * A2 + 3 * eta) <= INR q * X) by (apply Rmult_le_compat_l; lra).
    replace ((INR q + 2) * X) with (INR q * X + 2 * X) by ring. lra.
  Qed.
End Float.

Lemma bspline_2nd_derivative_double : forall (d : nat) (c : bspline double (vec double d)) (t : double) (M h : R),
  let knots := map B2R (bs_knots c) in
  let rp := map (vreal d) (bs_pts c) in
  let p := bspline_degree rp knots in
  let K := INR p / h in
  let Y := (1 + K) * (1 + K) * (1 + M) in
  valid_bspline rp knots -> / IZR (10 ^ 15) <= h -> knots_apart h knots -> bs_periodic c = false ->
  (forall x, In x (bs_knots c) -> is_finite x = true /\ Rabs (B2R x) <= bpow radix2 1022) ->
  0 <= M -> 6 * Y <= bpow radix2 1022 -> 24 * INR p * unit_roundoff 53 <= 1 ->
  (forall a, In a (bs_pts c) -> vfinite d a /\ forall i, (i < d)%nat -> Rabs (coord d i (vreal d a)) <= M) ->
  is_finite t = true -> lower_of rp knots <= B2R t <= upper_of rp knots ->
  (nth p knots 0 < nth (p + 1) knots 0 \/ lower_of rp knots < B2R t) ->
  exists (q : vec double d) (k : nat) (f f' f'' : R -> vec R d),
    @bs_evaluate_2nd_derivative double (vec double d) double_ops (@vec_ops double double_ops d) c t = Ok q /\ vfinite d q /\
    span_set knots (upper_of rp knots) k (B2R t) /\ nth k knots 0 < nth (k + 1) knots 0 /\
    (forall x, span_set knots (upper_of rp knots) k x -> (nth p knots 0 < nth (p + 1) knots 0 \/ lower_of rp knots < x) ->
       lower_of rp knots <= x <= upper_of rp knots /\ bspline_curve rp knots x = f x) /\
    (forall x, vderiv f x (f' x)) /\ (forall x, vderiv f' x (f'' x)) /\
    forall i, (i < d)%nat ->
      Rabs (coord d i (vreal d q) - coord d i (f'' (B2R t)))
      <= INR p * (81 * unit_roundoff 53 * (K * K * M) + 12 * Y * underflow_error 53 1024).
Proof.
  intros d c t M h knots rp p K Y Hv Hh Ha Hper HK HM HY Hu HP Ft Ht Hs.
  exact (@bspline_2nd_derivative_error 53 1024 prec64 max64 d c t M h tol_double Hv Hh Ha Hper HK HM HY Hu HP Ft Ht Hs).
Qed.

Lemma bspline_2nd_derivative_float : forall (d : nat) (c : bspline float32 (vec float32 d)) (t : float32) (M h : R),
  let knots := map B2R (bs_knots c) in
  let rp := map (vreal d) (bs_pts c) in
  let p := bspline_degree rp knots in
  let K := INR p / h in
  let Y := (1 + K) * (1 + K) * (1 + M) in
  valid_bspline rp knots -> / IZR (10 ^ 15) <= h -> knots_apart h knots -> bs_periodic c = false ->
  (forall x, In x (bs_knots c) -> is_finite x = true /\ Rabs (B2R x) <= bpow radix2 126) ->
  0 <= M -> 6 * Y <= bpow radix2 126 -> 24 * INR p * unit_roundoff 24 <= 1 ->
  (forall a, In a (bs_pts c) -> vfinite d a /\ forall i, (i < d)%nat -> Rabs (coord d i (vreal d a)) <= M) ->
  is_finite t = true -> lower_of rp knots <= B2R t <= upper_of rp knots ->
  (nth p knots 0 < nth (p + 1) knots 0 \/ lower_of rp knots < B2R t) ->
  exists (q : vec float32 d) (k : nat) (f f' f'' : R -> vec R d),
    @bs_evaluate_2nd_derivative float32 (vec float32 d) float32_ops (@vec_ops float32 float32_ops d) c t = Ok q /\ vfinite d q /\
    span_set knots (upper_of rp knots) k (B2R t) /\ nth k knots 0 < nth (k + 1) knots 0 /\
    (forall x, span_set knots (upper_of rp knots) k x -> (nth p knots 0 < nth (p + 1) knots 0 \/ lower_of rp knots < x) ->
       lower_of rp knots <= x <= upper_of rp knots /\ bspline_curve rp knots x = f x) /\
    (forall x, vderiv f x (f' x)) /\ (forall x, vderiv f' x (f'' x)) /\
    forall i, (i < d)%nat ->
      Rabs (coord d i (vreal d q) - coord d i (f'' (B2R t)))
      <= INR p * (81 * unit_roundoff 24 * (K * K * M) + 12 * Y * underflow_error 24 128).
Proof.
  intros d c t M h knots rp p K Y Hv Hh Ha Hper HK HM HY Hu HP Ft Ht Hs.
  exact (@bspline_2nd_derivative_error 24 128 prec32 max32 d c t M h tol_float Hv Hh Ha Hper HK HM HY Hu HP Ft Ht Hs).
Qed.

Lemma dspline_2nd_derivative_case : let c := dspline in let t := dofQ (3 # 10) in
  let knots := map B2R (bs_knots c) in
  let rp := map (vreal 2) (bs_pts c) in
  let p := bspline_degree rp knots in
  let h := / 4 in
  let K := INR p / h in
  let Y := (1 + K) * (1 + K) * (1 + 4) in
  p = 2%nat /\ valid_bspline rp knots /\ / IZR (10 ^ 15) <= h /\ knots_apart h knots /\ bs_periodic c = false /\
  (forall x, In x (bs_knots c) -> is_finite x = true /\ Rabs (B2R x) <= bpow radix2 1022) /\
  0 <= 4 /\ 6 * Y <= bpow radix2 1022 /\ 24 * INR p * unit_roundoff 53 <= 1 /\
  (forall a, In a (bs_pts c) -> vfinite 2 a /\ forall i, (i < 2)%nat -> Rabs (coord 2 i (vreal 2 a)) <= 4) /\
  is_finite t = true /\ lower_of rp knots <= B2R t <= upper_of rp knots /\
  nth p knots 0 < nth (p + 1) knots 0.
Proof.
  destruct dspline_derivative_case as (E & H1 & H2 & H3 & H4 & H5 & _ & _ & H8 & H9 & H10 & H11 & H12).
  cbv zeta. split; [exact E|]. split; [exact H1|]. split; [exact H2|]. split; [exact H3|]. split; [exact H4|]. split; [exact H5|].
  split; [lra|]. split; [|split; [exact H8|split; [exact H9|split; [exact H10|split; [exact H11|exact H12]]]]].
  rewrite E. apply Rle_trans with (bpow radix2 12); [simpl; lra|apply bpow_le; lia].
Qed.
