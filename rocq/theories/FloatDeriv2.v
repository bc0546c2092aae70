(** Rounding errors of the derivative of a B-spline curve. *)
From Coq Require Import Reals Lra Lia ZArith QArith List Bool.
From Flocq Require Import Core IEEE754.BinarySingleNaN.
From Verif Require Import Monad MonadFacts Scalar ScalarFacts Spec SpecFacts ModelCurve ModelBezier BezierThms
  ModelBSpline BSplineFacts BSplineThms BSplineThms2 BSplineThms3 Transfer SpecFloat ModelFloat FloatFacts FloatThms FloatThms2 FloatCases FloatRuns FloatDeriv.
Import ListNotations.
Local Open Scope R_scope.

(** * The derivative is the triangle of the difference quotients, in any arithmetic *)
Section Gen.
  Context {T P : Type} {SO : ScalarOps T} {V : PointOps T P}.
  Local Open Scope Z_scope.

  (** The factor of BSpline.h:100-104; [p] is the degree of the curve. *)
  Definition gquot (U : Z -> T) (p k i : Z) : T :=
    let diff := ssub (U (i + k + 1)) (U (i + k + 1 - p)) in
    if slt s0 diff then sdiv (sofZ p) diff else s0.
  Definition gdcoef (U : Z -> T) (cp : Z -> P) (p k i : Z) : P :=
    pmul (gquot U p k i) (psub (cp (k - p + (i + 1))) (cp (k - p + i))).

  Lemma bs_derivative_gtri (c : bspline T P) n p k U cp t :
    arr (bs_pts c) n cp -> arr (bs_knots c) (n + p + 1) U -> 1 <= p < n -> bs_periodic c = false ->
    (forall x : T, slt btolT x = true -> seq_ x s0 = false) -> (forall x : T, slt s0 x = true -> seq_ x s0 = false) ->
    locate_span c t = Ok k -> p <= k < n ->
    bs_evaluate_derivative c t = Ok (gtri (gstep U t (p - 1) k) (gdcoef U cp p k) (Z.to_nat (p - 1)) (p - 1)).
  Proof.
    intros Hc HU Hp Hper Hd Hd0 Hl Hk. unfold bs_evaluate_derivative, bs_validate, bs_unwrap.
    assert (Hdeg : bs_degree c = p).
    { unfold bs_degree. rewrite (arr_len _ _ _ HU), (arr_len _ _ _ Hc). lia. }
    rewrite Hdeg, Hper. destruct (Z.ltb_spec p 0); [lia|]. rewrite !bind_Ok. cbv zeta. rewrite Hl, bind_Ok.
    destruct (Z.leb_spec 0 p); [|lia]. cbn [assert_]. rewrite bind_Ok.
    rewrite (arr_len _ _ _ HU), (arr_len _ _ _ Hc), Z.eqb_refl. cbn [assert_]. rewrite bind_Ok.
    destruct (Z.eqb_spec p 0); [lia|].
    destruct (gspan_points c n p k cp Hc ltac:(lia) Hk) as (l & El & Hl'). rewrite El, bind_Ok.
    assert (HC : exists l2, bs_derivative_coefficients c (p - 1) k l = Ok l2 /\
      arr l2 (p + 1) (fun i => if i <? p then gdcoef U cp p k i else cp (k - p + i))).
    { unfold bs_derivative_coefficients. replace (p - 1 + 1) with p by lia.
      match goal with |- context [for_up 0 p ?B l] =>
        destruct (for_up_inv (fun i0 s => arr s (p + 1) (fun i => if i <? i0 then gdcoef U cp p k i else cp (k - p + i))) 0 p B l)
          as (s' & Es & Hs') end.
      - lia.
      - eapply arr_ext; [exact Hl'|]. intros i Hi. cbv beta. destruct (Z.ltb_spec i 0); [lia|reflexivity].
      - intros i s Hi Hs. rewrite (arr_get _ _ _ (i + k + 1) HU) by lia. rewrite bind_Ok.
        rewrite (arr_get _ _ _ (i + k + 1 - p) HU) by lia. rewrite bind_Ok.
        assert (EA : (if slt s0 (ssub (U (i + k + 1)) (U (i + k + 1 - p)))
          then ddiv (sofZ p) (ssub (U (i + k + 1)) (U (i + k + 1 - p))) else Ok s0) = Ok (gquot U p k i)).
        { unfold gquot. cbv zeta. destruct (slt s0 _) eqn:E; [|reflexivity]. unfold ddiv. rewrite (Hd0 _ E). reflexivity. }
        rewrite EA, bind_Ok. rewrite (arr_get _ _ _ (i + 1) Hs) by lia. rewrite bind_Ok.
        rewrite (arr_get _ _ _ i Hs) by lia. rewrite bind_Ok. cbv beta.
        destruct (Z.ltb_spec (i + 1) i); [lia|]. destruct (Z.ltb_spec i i); [lia|].
        destruct (arr_set s _ _ i (gdcoef U cp p k i) Hs) as (s3 & E3 & HS3); [lia|].
        exists s3. split; [exact E3|]. eapply arr_ext; [exact HS3|]. intros j Hj. cbv beta. unfold fupd.
        destruct (Z.eqb_spec j i) as [->|Hne].
        + destruct (Z.ltb_spec i (i + 1)); [reflexivity|lia].
        + destruct (Z.ltb_spec j i); destruct (Z.ltb_spec j (i + 1)); try lia; reflexivity.
      - exists s'. split; [exact Es|exact Hs']. }
    destruct HC as (l2 & E2 & H2). rewrite E2, bind_Ok.
    unfold bs_deBoor. rewrite Hdeg. destruct (Z.ltb_spec 0 (p - 1)) as [Hpos|Hpos].
    - destruct (arr_alloc t p) as (bv & Eb & Hb); [lia|]. rewrite Eb, bind_Ok. unfold bs_blossom.
      rewrite (arr_len _ _ _ H2). destruct (Z.leb_spec (p - 1 + 1) (p + 1)); [|lia]. cbn [assert_]. rewrite bind_Ok.
      match goal with |- context [for_up 1 (p - 1 + 1) ?O l2] => set (outer := O) end.
      destruct (gtri_loops (gstep U t (p - 1) k) outer
        (fun r j pts =>
           do u1 <- get (bs_knots c) (j + k + 1 - r);
           do u0 <- get (bs_knots c) (j + k - (p - 1));
           do alpha <- (if slt (sofQ (1 # (10 ^ 16)%positive)) (ssub u1 u0) then ddiv (ssub t u0) (ssub u1 u0) else Ok s0);
           do a <- get pts (j - 1);
           do b <- get pts j;
           set pts j (padd (pmul (ssub s1 alpha) a) (pmul alpha b))) l2 (p + 1) _ (p - 1) H2) as (l' & E & H').
      + lia.
      + intros r s Hr. unfold outer. rewrite (arr_get _ _ _ (r - 1) Hb) by lia. rewrite bind_Ok. reflexivity.
      + intros r j s g Hr Hj Hs. rewrite (arr_get _ _ _ (j + k + 1 - r) HU) by lia. rewrite bind_Ok.
        rewrite (arr_get _ _ _ (j + k - (p - 1)) HU) by lia. rewrite bind_Ok.
        assert (EA : (if slt (sofQ (1 # (10 ^ 16)%positive)) (ssub (U (j + k + 1 - r)) (U (j + k - (p - 1))))
          then ddiv (ssub t (U (j + k - (p - 1)))) (ssub (U (j + k + 1 - r)) (U (j + k - (p - 1)))) else Ok s0) = Ok (galpha U t (p - 1) k r j)).
        { unfold galpha, btolT. cbv zeta.
          destruct (slt _ (ssub (U (j + k + 1 - r)) (U (j + k - (p - 1))))) eqn:E; [|reflexivity].
          unfold ddiv. rewrite (Hd _ E). reflexivity. }
        rewrite EA, bind_Ok. rewrite (arr_get _ _ _ (j - 1) Hs) by lia. rewrite bind_Ok.
        rewrite (arr_get _ _ _ j Hs) by lia. now rewrite bind_Ok.
      + rewrite E, bind_Ok. rewrite (arr_get _ _ _ (p - 1) H') by lia. cbv beta. rewrite Z.leb_refl, Z.min_id. f_equal.
        enough (HH : forall m j, 0 <= j - Z.of_nat m -> j <= p - 1 ->
          gtri (gstep U t (p - 1) k) (fun i => if i <? p then gdcoef U cp p k i else cp (k - p + i)) m j =
          gtri (gstep U t (p - 1) k) (gdcoef U cp p k) m j) by (apply HH; lia).
        induction m as [|m IH]; intros j Hj1 Hj2; cbn [gtri].
        * destruct (Z.ltb_spec j p); [reflexivity|lia].
        * rewrite (IH (j - 1)), (IH j) by lia. reflexivity.
    - rewrite bind_Ok. rewrite (arr_get _ _ _ _ H2) by lia. replace (Z.to_nat (p - 1)) with O by lia. cbn [gtri].
      destruct (Z.ltb_spec (p - 1) p); [reflexivity|lia].
  Qed.
End Gen.

Section Float.
  Context (prec emax : Z) {Hprec : Prec_gt_0 prec} {Hmax : Prec_lt_emax prec emax}.
  Notation num := (binary_float prec emax).
  Notation u := (unit_roundoff prec).
  Notation eta := (underflow_error prec emax).
  Notation Omega := (bpow radix2 emax).
  Local Instance FOd : ScalarOps num := ieee_ops prec emax.

  (** ** One weight of de Boor's triangle *)
  Lemma weight_near (t v0 v1 : num) :
    tol_ok prec emax -> is_finite t = true -> is_finite v0 = true -> is_finite v1 = true ->
    Rabs (B2R v0) <= bpow radix2 (emax - 2) -> Rabs (B2R v1) <= bpow radix2 (emax - 2) ->
    B2R v0 <= B2R t <= B2R v1 -> / IZR (10 ^ 15) < B2R v1 - B2R v0 ->
    let a := if slt btolT (ssub v1 v0) then sdiv (ssub t v0) (ssub v1 v0) else s0 in
    let a' := if slt btolT (ssub (B2R v1) (B2R v0)) then sdiv (ssub (B2R t) (B2R v0)) (ssub (B2R v1) (B2R v0)) else s0 in
    is_finite a = true /\ 0 <= B2R a <= 1 /\ 0 <= a' <= 1 /\ Rabs (B2R a - a') <= 5 * u + eta.
  Proof.
    intros Htol Ft F0 F1 B0 B1 Ht Hap. pose proof (u_pos prec) as Hu. pose proof (u_le_half prec) as Hu2.
    assert (H15 : 0 < / IZR (10 ^ 15)) by (apply Rinv_0_lt_compat, IZR_lt; reflexivity).
    assert (Hom : (1 + u) * (B2R v1 - B2R v0) < Omega).
    { apply Rabs_le_inv in B1. apply Rabs_le_inv in B0.
      assert (HOq : Omega = 4 * bpow radix2 (emax - 2)).
      { change 4 with (bpow radix2 2). rewrite <- bpow_plus. f_equal. lia. }
      pose proof (bpow_gt_0 radix2 (emax - 2)). rewrite HOq. nra. }
    destruct (ratio_spec prec emax t v0 v1 Ft F0 F1 Ht ltac:(lra) Hom) as (Fd & Hd & Fa & Ha01 & Hae & _).
    destruct Htol as [Ftol [Htol1 Htol2]].
    assert (Ec : slt (btolT : num) (ssub v1 v0) = true).
    { cbn [slt ssub FOd ieee_ops]. rewrite Bltb_correct by assumption. apply Rlt_bool_true.
      eapply Rle_lt_trans; [exact Htol2|]. eapply Rlt_le_trans; [|exact Hd].
      apply Rlt_le_trans with (/ 2 * / IZR (10 ^ 15)).
      - replace (IZR (10 ^ 15)) with (IZR (10 ^ 16) / 10) by (simpl; lra). simpl. lra.
      - apply Rmult_le_compat; lra. }
    cbv zeta. rewrite Ec.
    assert (Ec' : slt (btolT : R) (ssub (B2R v1) (B2R v0)) = true).
    { change (btolT : R) with btol. pose proof btol_val as Hbv. generalize dependent btol.
      intros tol Hbv. cbn [slt ssub R_ops].
      destruct (Rltb_spec tol (B2R v1 - B2R v0)) as [_|Hge]; [reflexivity|]. exfalso. rewrite Hbv in Hge.
      assert (/ IZR (10 ^ 16) < / IZR (10 ^ 15)).
      { apply Rinv_lt_contravar; [apply Rmult_lt_0_compat; apply IZR_lt; reflexivity|apply IZR_lt; reflexivity]. }
      lra. }
    rewrite Ec'. split; [exact Fa|]. split; [exact Ha01|].
    cbn [sdiv ssub R_ops]. split; [|exact Hae]. split.
    - apply Rmult_le_pos; [lra|apply Rlt_le, Rinv_0_lt_compat; lra].
    - apply (Rmult_le_reg_r (B2R v1 - B2R v0)); [lra|]. unfold Rdiv. rewrite Rmult_assoc, Rinv_l by lra. lra.
  Qed.

  (** ** The triangle of points that already carry an error [E]. *)
  Lemma deboor_near d i (U : Z -> num) (t : num) (q : nat) (k : Z) (g : Z -> vec num d) (g' : Z -> vec R d) M E :
    (i < d)%nat -> tol_ok prec emax -> 0 <= M -> 0 <= E -> (Z.of_nat q <= k)%Z ->
    (forall j, (k - Z.of_nat q < j <= k + Z.of_nat q)%Z -> is_finite (U j) = true /\ Rabs (B2R (U j)) <= bpow radix2 (emax - 2)) ->
    (forall a b, (k - Z.of_nat q < a <= k)%Z -> (k + 1 <= b <= k + Z.of_nat q)%Z ->
       B2R (U a) <= B2R t <= B2R (U b) /\ / IZR (10 ^ 15) < B2R (U b) - B2R (U a)) ->
    is_finite t = true ->
    (forall j, (0 <= j <= Z.of_nat q)%Z -> near prec emax M E (coord d i (g j)) (coord d i (g' j)) /\ Rabs (coord d i (g' j)) <= M) ->
    growth u eta M q < Omega ->
    near prec emax (growth u eta M q) (growth u eta M q - M + E + 2 * INR q * (5 * u + eta) * M)
      (coord d i (gtri (gstep U t (Z.of_nat q) k) g q (Z.of_nat q)))
      (coord d i (gtri (gstep (fun j => B2R (U j)) (B2R t) (Z.of_nat q) k) g' q (Z.of_nat q))).
  Proof.
    intros Hi Htol HM HE Hqk HU HS Ft Hg HO.
    set (U' := fun j => B2R (U j)).
    pose proof (u_pos prec) as Hu. pose proof (u_le_half prec) as Hu2. pose proof (eta_pos prec emax) as Het.
    assert (Hal : forall r j, (1 <= r <= j)%Z -> (j <= Z.of_nat q)%Z ->
      let a := galpha U t (Z.of_nat q) k r j in
      let a' := galpha U' (B2R t) (Z.of_nat q) k r j in
      is_finite a = true /\ 0 <= B2R a <= 1 /\ 0 <= a' <= 1 /\ Rabs (B2R a - a') <= 5 * u + eta).
    { intros r j Hr Hj. cbv zeta. unfold galpha, U'.
      destruct (HU (j + k + 1 - r)%Z ltac:(lia)) as [F1 B1]. destruct (HU (j + k - Z.of_nat q)%Z ltac:(lia)) as [F0 B0].
      destruct (HS (j + k - Z.of_nat q)%Z (j + k + 1 - r)%Z ltac:(lia) ltac:(lia)) as [H1 H2].
      apply weight_near; assumption. }
    set (f := gstep U t (Z.of_nat q) k). set (f' := gstep U' (B2R t) (Z.of_nat q) k).
    enough (HH : forall r j, (r <= q)%nat -> (Z.of_nat r <= j <= Z.of_nat q)%Z ->
      near prec emax (growth u eta M r) (growth u eta M r - M + E + 2 * INR r * (5 * u + eta) * M)
        (coord d i (gtri f g r j)) (coord d i (gtri f' g' r j)) /\ Rabs (coord d i (gtri f' g' r j)) <= M).
    { apply (HH q (Z.of_nat q)); lia. }
    induction r as [|r IH]; intros j Hr Hj.
    - cbn [gtri]. rewrite growth_0. destruct (Hg j ltac:(lia)) as [N A]. split; [|exact A].
      eapply near_weaken; [| |exact N]; simpl INR; lra.
    - cbn [gtri].
      destruct (IH (j - 1)%Z ltac:(lia) ltac:(lia)) as [I1 J1]. destruct (IH j ltac:(lia) ltac:(lia)) as [I2 J2]. clear IH.
      set (X := gtri f g r (j - 1)) in *. set (Y := gtri f g r j) in *.
      set (X' := gtri f' g' r (j - 1)) in *. set (Y' := gtri f' g' r j) in *.
      unfold f, f', gstep.
      destruct (Hal (Z.of_nat (S r)) j ltac:(lia) ltac:(lia)) as (Fa & Ha01 & Ha' & Hae).
      set (al := galpha U t (Z.of_nat q) k (Z.of_nat (S r)) j) in *.
      set (al' := galpha U' (B2R t) (Z.of_nat q) k (Z.of_nat (S r)) j) in *.
      rewrite gcoord_add, !gcoord_mul by exact Hi. rewrite coord_add, !coord_mul by exact Hi.
      change (ssub s1 al') with (1 - al').
      set (x' := coord d i X') in *. set (y' := coord d i Y') in *.
      split.
      2:{ eapply Rle_trans; [apply Rabs_triang|]. rewrite !Rabs_mult, (Rabs_pos_eq al'), (Rabs_pos_eq (1 - al')) by lra.
          replace M with ((1 - al') * M + al' * M) by ring.
          apply Rplus_le_compat; apply Rmult_le_compat_l; lra. }
      destruct (one_minus_spec prec emax al Fa Ha01) as (Fs & _ & _ & Es).
      pose proof (growth_S prec emax M r HM) as HG.
      pose proof (growth_mono prec emax M (S r) q HM ltac:(lia)) as HG2.
      pose proof (near_lerp prec emax (Bminus mode_NE (bofZ prec emax 1) al) al _ _ (1 - B2R al) (B2R al) _ _ _ _
        Fs Fa ltac:(lra) ltac:(lra) ltac:(lra) Es (finite_B2R_err0 prec emax al ltac:(lra)) I1 I2 ltac:(lra)) as HN.
      destruct HN as (N1 & N2 & N3). split; [exact N1|]. split; [eapply Rle_trans; [exact N2|exact HG]|].
      match goal with |- Rabs (?z - _) <= _ => replace (z - ((1 - al') * x' + al' * y')) with
        ((z - ((1 - B2R al) * x' + B2R al * y')) + (B2R al - al') * (y' - x')) by ring end.
      eapply Rle_trans; [apply Rabs_triang|]. rewrite (Rabs_mult (B2R al - al')).
      assert (Hxy : Rabs (y' - x') <= 2 * M).
      { apply Rabs_le_inv in J1. apply Rabs_le_inv in J2. apply Rabs_le. lra. }
      assert (Rabs (B2R al - al') * Rabs (y' - x') <= (5 * u + eta) * (2 * M)) by (apply Rmult_le_compat; auto using Rabs_pos).
      rewrite S_INR.
      eapply Rle_trans; [apply Rplus_le_compat; [exact N3|eassumption]|].
      lra.
  Qed.

  (** ** A difference quotient *)
  Lemma quot_near (k : Z) (x y v0 v1 : num) M h : (1 <= k)%Z -> 24 * IZR k * u <= 1 ->
    is_finite x = true -> is_finite y = true -> Rabs (B2R x) <= M -> Rabs (B2R y) <= M ->
    is_finite v0 = true -> is_finite v1 = true -> 
    Rabs (B2R v0) <= bpow radix2 (emax - 2) -> Rabs (B2R v1) <= bpow radix2 (emax - 2) ->
    0 < h <= B2R v1 - B2R v0 -> M <= bpow radix2 (emax - 2) -> IZR k / h <= bpow radix2 (emax - 2) ->
    2 * (IZR k / h) * M <= bpow radix2 (emax - 2) ->
    let L := 2 * (IZR k / h) * M in
    let w := Bdiv mode_NE (@bofZ prec emax _ _ k) (Bminus mode_NE v1 v0) in
    0 < B2R (Bminus mode_NE v1 v0) /\ is_finite (Bminus mode_NE v1 v0) = true /\
    near prec emax (12 / 10 * L + (1 + 22 / 10 * M) * eta) (44 / 10 * u * L + (1 + 22 / 10 * M) * eta)
      (Bmult mode_NE w (Bminus mode_NE x y)) (IZR k / (B2R v1 - B2R v0) * (B2R x - B2R y)) /\
    Rabs (IZR k / (B2R v1 - B2R v0) * (B2R x - B2R y)) <= L.
  Proof.
    intros Hk Hku Fx Fy Hx Hy F0 F1 B0 B1 Hh HMO HKO HLO L w.
    pose proof (u_pos prec) as Hu. pose proof (eta_pos prec emax) as He.
    pose proof (prec_gt_0 prec). pose proof (prec_lt_emax prec emax).
    assert (Heu : eta <= u) by (unfold underflow_error, unit_roundoff; apply bpow_le; lia).
    assert (Hk1 : 1 <= IZR k) by (apply (IZR_le 1); exact Hk).
    assert (Hu24 : u <= / 24) by nra.
    assert (HM0 : 0 <= M) by (pose proof (Rabs_pos (B2R x)); lra).
    set (W := bpow radix2 (emax - 2)) in *.
    assert (HO : Omega = 4 * W).
    { unfold W. change 4 with (bpow radix2 2). rewrite <- bpow_plus. f_equal. lia. }
    assert (HW : 1 <= W).
    { unfold W. change 1 with (bpow radix2 0). apply bpow_le.
      assert (prec <> 1)%Z; [|lia]. intros ->. unfold unit_roundoff in Hu24.
      assert (E2 : bpow radix2 (- (1)) = / 2) by reflexivity. rewrite E2 in Hu24. lra. }
    set (D := B2R v1 - B2R v0) in *.
    assert (HD : D <= 2 * W) by (apply Rabs_le_inv in B0; apply Rabs_le_inv in B1; unfold D; lra).
    destruct (sub_spec prec emax v1 v0 F1 F0) as (Fd & _ & Ed).
    { fold D. rewrite Rabs_pos_eq by lra. nra. }
    fold D in Ed. rewrite (Rabs_pos_eq D) in Ed by lra. set (dd := Bminus mode_NE v1 v0) in *.
    apply Rabs_le_inv in Ed. assert (Hdd : 23 / 24 * D <= B2R dd) by nra. assert (Hdp : 0 < B2R dd) by lra.
    destruct (int_spec prec emax k ltac:(lia) ltac:(nra)) as [Fk Ek].
    (* the exact quotients *)
    set (K := IZR k / D). set (K2 := IZR k / B2R dd).
    assert (HiD : 0 < / D) by (apply Rinv_0_lt_compat; lra).
    assert (HK0 : 0 < K) by (unfold K, Rdiv; nra).
    assert (HKh : K <= IZR k / h).
    { unfold K, Rdiv. apply Rmult_le_compat_l; [lra|]. apply Rinv_le_contravar; lra. }
    assert (EK : K * D = IZR k) by (unfold K; field; lra).
    assert (EK2 : K2 * B2R dd = IZR k) by (unfold K2; field; lra).
    assert (HK20 : 0 < K2) by (unfold K2, Rdiv; apply Rmult_lt_0_compat; [lra|apply Rinv_0_lt_compat; lra]).
    assert (HK24 : K2 <= 24 / 23 * K).
    { apply (Rmult_le_reg_r (B2R dd)); [lra|]. rewrite EK2, <- EK. nra. }
    assert (HKK : Rabs (K2 - K) <= 24 / 23 * u * K).
    { assert (E : K2 - K = K2 * (D - B2R dd) * / D).
      { replace K with (K2 * B2R dd * / D) by (rewrite EK2; reflexivity). field. lra. }
      rewrite E, Rabs_mult, (Rabs_pos_eq (/ D)) by lra. rewrite Rabs_mult, (Rabs_pos_eq K2) by lra.
      assert (Rabs (D - B2R dd) <= u * D) by (apply Rabs_le; lra).
      apply Rle_trans with (K2 * (u * D) * / D).
      - apply Rmult_le_compat_r; [lra|]. apply Rmult_le_compat_l; lra.
      - replace (K2 * (u * D) * / D) with (K2 * u) by (field; lra). nra. }
    apply Rabs_le_inv in HKK.
    (* the rounded quotient *)
    pose proof (Bdiv_correct prec emax Hprec Hmax mode_NE (@bofZ prec emax _ _ k) dd ltac:(lra)) as HB.
    rewrite Ek in HB. fold K2 in HB. fold w in HB.
    pose proof (fl_err prec emax K2) as Hf. rewrite (Rabs_pos_eq K2) in Hf by lra.
    set (fl := round radix2 (SpecFloat.fexp prec emax) (round_mode mode_NE) K2) in *.
    assert (HuK2 : u * K2 <= / 24 * K2) by (apply Rmult_le_compat_r; lra).
    assert (HuK : u * K2 <= u * (24 / 23 * K)) by (apply Rmult_le_compat_l; lra).
    pose proof (Rabs_le_inv _ _ Hf) as Hf'.
    rewrite Rlt_bool_true in HB.
    2:{ apply Rabs_lt. lra. }
    destruct HB as (Ew & Fw & _). rewrite Fk in Fw.
    assert (Hw : Rabs (B2R w - K) <= 21 / 10 * (u * K) + eta) by (rewrite Ew; apply Rabs_le; lra).
    assert (HuK0 : 0 <= u * K <= / 24 * K) by (split; [nra|apply Rmult_le_compat_r; lra]).
    assert (Hwb : Rabs (B2R w) <= 1088 / 1000 * K + eta) by (apply Rabs_le_inv in Hw; apply Rabs_le; lra).
    (* the difference of the points *)
    set (S := B2R x - B2R y).
    assert (HS : Rabs S <= 2 * M) by (apply Rabs_le_inv in Hx; apply Rabs_le_inv in Hy; apply Rabs_le; unfold S; lra).
    destruct (sub_spec prec emax x y Fx Fy) as (Fs & _ & Es).
    { fold S. pose proof (Rabs_pos S). assert (u * Rabs S <= / 24 * (2 * M)) by (apply Rmult_le_compat; lra). lra. }
    fold S in Es. set (s := Bminus mode_NE x y) in *.
    assert (Es2 : Rabs (B2R s - S) <= u * (2 * M)) by (eapply Rle_trans; [exact Es|]; apply Rmult_le_compat_l; lra).
    assert (HuM : 0 <= u * M <= / 24 * M) by (split; [nra|apply Rmult_le_compat_r; lra]).
    assert (Hsb : Rabs (B2R s) <= 25 / 12 * M).
    { replace (B2R s) with ((B2R s - S) + S) by ring. eapply Rle_trans; [apply Rabs_triang|]. lra. }
    (* the product *)
    assert (HKM : 0 <= K * M) by nra.
    assert (HL : 2 * (K * M) <= L) by (unfold L; nra).
    assert (HeM : 0 <= eta * M) by nra.
    assert (HP : Rabs (B2R w * B2R s) <= (1088 / 1000 * K + eta) * (25 / 12 * M)).
    { rewrite Rabs_mult. apply Rmult_le_compat; auto using Rabs_pos. }
    assert (HuP : u * Rabs (B2R w * B2R s) <= u * ((1088 / 1000 * K + eta) * (25 / 12 * M))) by (apply Rmult_le_compat_l; lra).
    assert (HuL : 0 <= u * (K * M)) by (apply Rmult_le_pos; lra).
    assert (HuL2 : u * (K * M) <= / 24 * (K * M)) by (apply Rmult_le_compat_r; lra).
    assert (HuLL : 2 * (u * (K * M)) <= u * L) by nra.
    assert (HueM : u * (eta * M) <= / 24 * (eta * M)) by (apply Rmult_le_compat_r; lra).
    assert (EQ1 : (1088 / 1000 * K + eta) * (25 / 12 * M) = 27200 / 12000 * (K * M) + 25 / 12 * (eta * M)) by field.
    assert (EQ2 : u * ((1088 / 1000 * K + eta) * (25 / 12 * M)) = 27200 / 12000 * (u * (K * M)) + 25 / 12 * (u * (eta * M))) by field.
    rewrite EQ1 in HP. rewrite EQ2 in HuP.
    assert (HeMW : eta * M <= / 24 * W) by (apply Rmult_le_compat; lra).
    destruct (mul_spec prec emax w s Fw Fs) as (Fm & _ & Em).
    { fold L in HLO. lra. }
    set (m := Bmult mode_NE w s) in *.
    split; [exact Hdp|]. split; [exact Fd|]. fold K. fold S.
    assert (HX : Rabs (B2R w * B2R s - K * S) <= (21 / 10 * (u * K) + eta) * (25 / 12 * M) + K * (u * (2 * M))).
    { replace (B2R w * B2R s - K * S) with ((B2R w - K) * B2R s + K * (B2R s - S)) by ring.
      eapply Rle_trans; [apply Rabs_triang|]. rewrite !Rabs_mult, (Rabs_pos_eq K) by lra.
      apply Rplus_le_compat; [apply Rmult_le_compat; auto using Rabs_pos|apply Rmult_le_compat_l; lra]. }
    assert (EQ3 : (21 / 10 * (u * K) + eta) * (25 / 12 * M) + K * (u * (2 * M)) = 525 / 120 * (u * (K * M)) + 25 / 12 * (eta * M) + 2 * (u * (K * M))) by field.
    rewrite EQ3 in HX.
    split; [split; [exact Fm|split]|].
    - replace (B2R m) with ((B2R m - B2R w * B2R s) + B2R w * B2R s) by ring.
      eapply Rle_trans; [apply Rabs_triang|]. lra.
    - replace (B2R m - K * S) with ((B2R m - B2R w * B2R s) + (B2R w * B2R s - K * S)) by ring.
      eapply Rle_trans; [apply Rabs_triang|]. lra.
    - rewrite Rabs_mult, (Rabs_pos_eq K) by lra. assert (K * Rabs S <= K * (2 * M)) by (apply Rmult_le_compat_l; lra). lra.
  Qed.

  Lemma fpos_nonzero (x : num) : slt s0 x = true -> seq_ x s0 = false.
  Proof. destruct x as [s|[]| |[] m e He]; intros H; try reflexivity; discriminate. Qed.
  Lemma Rpos_nonzero (x : R) : slt s0 x = true -> seq_ x s0 = false.
  Proof. cbn [slt seq_ s0 R_ops]. destruct (Rltb_spec 0 x); [|discriminate]. destruct (Reqb_spec x 0); [lra|reflexivity]. Qed.

  Lemma bspline_derivative_error d (c : bspline num (vec num d)) (t : num) M h :
    let knots := map B2R (bs_knots c) in
    let rp := map (vreal d) (bs_pts c) in
    let p := bspline_degree rp knots in
    let L := 2 * (INR p / h) * M in
    tol_ok prec emax ->
    valid_bspline rp knots -> / IZR (10 ^ 15) <= h -> knots_apart h knots -> bs_periodic c = false ->
    (forall x, In x (bs_knots c) -> is_finite x = true /\ Rabs (B2R x) <= bpow radix2 (emax - 2)) ->
    0 <= M <= bpow radix2 (emax - 2) -> INR p / h <= bpow radix2 (emax - 2) -> L <= bpow radix2 (emax - 2) ->
    24 * INR p * u <= 1 ->
    (forall a, In a (bs_pts c) -> vfinite d a /\ forall i, (i < d)%nat -> Rabs (coord d i (vreal d a)) <= M) ->
    is_finite t = true -> lower_of rp knots <= B2R t <= upper_of rp knots ->
    (nth p knots 0 < nth (p + 1) knots 0 \/ lower_of rp knots < B2R t) ->
    exists (q : vec num d) (k : nat) (f f' : R -> vec R d),
      bs_evaluate_derivative c t = Ok q /\ vfinite d q /\
      span_set knots (upper_of rp knots) k (B2R t) /\ nth k knots 0 < nth (k + 1) knots 0 /\
      (forall x, span_set knots (upper_of rp knots) k x -> (nth p knots 0 < nth (p + 1) knots 0 \/ lower_of rp knots < x) ->
         lower_of rp knots <= x <= upper_of rp knots /\ bspline_curve rp knots x = f x) /\
      (forall x, vderiv f x (f' x)) /\
      forall i, (i < d)%nat ->
        Rabs (coord d i (vreal d q) - coord d i (f' (B2R t))) <= INR p * (17 * u * L + (4 + 4 * M + 3 * L) * eta).
  Proof.
    intros knots rp p L Htol Hv Hh Ha Hper HK HM HKO HLO Hu HP Ft Ht Hs.
    pose (c' := bsreal prec emax c).
    assert (Hlen : length rp = length (bs_pts c)) by apply map_length.
    assert (H15 : 0 < / IZR (10 ^ 15)) by (apply Rinv_0_lt_compat, IZR_lt; reflexivity).
    assert (H16 : / IZR (10 ^ 16) < / IZR (10 ^ 15)).
    { apply Rinv_lt_contravar; [apply Rmult_lt_0_compat; apply IZR_lt; reflexivity|apply IZR_lt; reflexivity]. }
    assert (Ha16 : knots_apart (/ IZR (10 ^ 16)) knots).
    { intros i j Hij Hlt. pose proof (Ha i j Hij Hlt). lra. }
    destruct (bspline_derivs c' (B2R t) Hv Ha16 Hper Ht Hs) as (k0 & f & f' & f2 & Hk0 & Hspan & Hne & Hev & HD & _).
    change (bs_pts c') with rp in *. change (bs_knots c') with knots in *.
    fold p in Hk0, Hev.
    destruct (Hev (B2R t) Hspan Hs) as (_ & Ed & _).
    pose proof (vb_pts _ _ Hv) as Hpn. fold p in Hpn.
    assert (HkN : length (bs_knots c) = (length (bs_pts c) + p + 1)%nat).
    { pose proof (vb_len _ _ Hv) as V1. unfold p, bspline_degree. unfold knots in *. rewrite map_length in *. lia. }
    pose proof (u_pos prec) as Hu0. pose proof (eta_pos prec emax) as He.
    assert (Hdeg : bs_degree c = Z.of_nat p) by (unfold bs_degree, zlen; lia).
    assert (HF : forall x, span_set knots (upper_of rp knots) k0 x -> (nth p knots 0 < nth (p + 1) knots 0 \/ lower_of rp knots < x) ->
         lower_of rp knots <= x <= upper_of rp knots /\ bspline_curve rp knots x = f x).
    { intros x Hx Hx2. assert (Hr : lower_of rp knots <= x <= upper_of rp knots).
      { pose proof (vb_sorted _ _ Hv) as Hso.
        assert (lower_of rp knots <= nth k0 knots 0).
        { unfold lower_of. fold p. apply Hso. unfold knots. rewrite map_length. lia. }
        assert (nth (k0 + 1) knots 0 <= upper_of rp knots).
        { unfold upper_of. apply Hso. unfold knots. rewrite map_length. lia. }
        destruct Hx as [Hx|[E Hx]]; lra. }
      split; [exact Hr|]. destruct (Hev x Hx Hx2) as (E1 & _).
      rewrite (bspline_eval c' x) in E1.
      - change (bs_pts c') with rp in E1. change (bs_knots c') with knots in E1. congruence.
      - exact Hv.
      - exact Ha16.
      - exact Hper.
      - exact Hr.
      - destruct Hx2 as [Hx2|Hx2]; [left; left; exact Hx2|right; exact Hx2]. }
    (* location *)
    destruct (bspline_locate c' (B2R t) Hv) as (k & Ek & Hk & _ & Hk3).
    change (bs_pts c') with rp in *. change (bs_knots c') with knots in *. fold p in Hk, Hk3.
    destruct Hk3 as (Hk1 & Hk2 & _).
    { destruct Hs as [Hs|Hs]; [left; exact Hs|right; exact Hs]. }
    { apply Ht. }
    specialize (Hk2 ltac:(unfold upper_of in Ht; apply Ht)).
    assert (El : locate_span c t = Ok (Z.of_nat k)).
    { pose proof (flocate_span prec emax c t (fun x Hx => proj1 (HK x Hx)) Ft) as HR. fold c' in HR. rewrite Ek in HR.
      destruct (locate_span c t) eqn:EL; simpl in HR; try contradiction. now subst. }
    set (n := Z.of_nat (length (bs_pts c))).
    destruct (Nat.eq_dec p 0) as [Ep|Ep].
    { (* piecewise constant *)
      exists p0, k0, f, f'.
      assert (Hz : forall i, (i < d)%nat -> is_finite (coord d i (p0 : vec num d)) = true /\ B2R (coord d i (p0 : vec num d)) = 0).
      { clear. intros i. revert i. induction d as [|d IH]; intros i Hi; [lia|]. destruct i; [split; reflexivity|]. apply (IH i). lia. }
      split.
      { unfold bs_evaluate_derivative, bs_validate, bs_unwrap. rewrite Hdeg, Hper, Ep. change (Z.of_nat 0 <? 0)%Z with false. cbv iota. rewrite !bind_Ok. cbv zeta. rewrite El, !bind_Ok.
        replace (zlen (bs_knots c) =? zlen (bs_pts c) + Z.of_nat 0 + 1)%Z with true; [reflexivity|].
        symmetry. apply Z.eqb_eq. unfold zlen. lia. }
      split; [apply (vfinite_coord prec emax d p0); intros i Hi; apply (Hz i Hi)|].
      split; [exact Hspan|]. split; [exact Hne|]. split; [exact HF|]. split; [exact HD|].
      intros i Hi. rewrite (vreal_coord prec emax). pose proof (proj2 (Hz i Hi)) as Hz2.
      match goal with |- Rabs (?x - _) <= _ => replace x with 0 by (symmetry; exact Hz2) end.
      assert (Ef : f' (B2R t) = p0).
      { assert (Hdeg' : bs_degree c' = Z.of_nat p).
        { unfold bs_degree, zlen. change (bs_pts c') with rp. change (bs_knots c') with knots. rewrite Hlen. unfold knots. rewrite map_length. lia. }
        unfold bs_evaluate_derivative, bs_validate, bs_unwrap in Ed. rewrite Hdeg', Ep in Ed. change (bs_periodic c') with (bs_periodic c) in Ed. rewrite Hper in Ed.
        change (Z.of_nat 0 <? 0)%Z with false in Ed. cbv iota in Ed. rewrite !bind_Ok in Ed. cbv zeta in Ed. rewrite Ek, !bind_Ok in Ed.
        replace (zlen (bs_knots c') =? zlen (bs_pts c') + Z.of_nat 0 + 1)%Z with true in Ed.
        - assert (Ed2 : Ok (p0 : vec R d) = Ok (f' (B2R t))) by exact Ed. congruence.
        - symmetry. apply Z.eqb_eq. unfold zlen. change (bs_pts c') with rp. change (bs_knots c') with knots. rewrite Hlen. unfold knots. rewrite map_length. lia. }
      rewrite Ef, coord_0 by exact Hi. rewrite Ep. simpl INR. rewrite Rminus_0_r, Rabs_R0. lra. }
    (* both runs are triangles *)
    set (cp := fun i : Z => nth (Z.to_nat i) (bs_pts c) p0).
    set (U := fun i : Z => nth (Z.to_nat i) (bs_knots c) s0).
    set (cp' := fun i : Z => nth (Z.to_nat i) rp p0).
    assert (Hpts : arr (bs_pts c) n cp) by apply arr_nth.
    assert (Hkn : arr (bs_knots c) (n + Z.of_nat p + 1) U).
    { replace (n + Z.of_nat p + 1)%Z with (zlen (bs_knots c)) by (unfold zlen, n; lia). apply arr_nth. }
    assert (Hpts' : arr (bs_pts c') n cp').
    { change (bs_pts c') with rp. replace n with (zlen rp) by (unfold zlen, n; lia). apply arr_nth. }
    assert (EU : forall i, nth i knots 0 = B2R (nth i (bs_knots c) s0)).
    { intros i. unfold knots. change 0 with (B2R (@s0 num FOd)). apply map_nth. }
    assert (Hkn' : arr (bs_knots c') (n + Z.of_nat p + 1) (fun i => B2R (U i))).
    { change (bs_knots c') with knots. replace (n + Z.of_nat p + 1)%Z with (zlen knots) by (unfold zlen, n, knots; rewrite map_length; lia).
      eapply arr_ext; [apply (arr_nth knots s0)|]. intros i Hi. cbv beta. apply EU. }
    assert (HdR : forall x : R, slt btolT x = true -> seq_ x s0 = false).
    { intros x Hx. unfold btolT in Hx. pose proof btol_pos as Hb. unfold btol in Hb.
      generalize dependent (sofQ (1 # (10 ^ 16)%positive) : R). intros tol Hx Hb. cbn [slt seq_ s0 R_ops] in *.
      destruct (Rltb_spec tol x); [|discriminate]. destruct (Reqb_spec x 0); [lra|reflexivity]. }
    rewrite (bs_derivative_gtri c' n (Z.of_nat p) (Z.of_nat k) _ _ (B2R t) Hpts' Hkn' ltac:(unfold n; lia) Hper
               HdR Rpos_nonzero Ek ltac:(unfold n; lia)) in Ed.
    exists (gtri (gstep U t (Z.of_nat p - 1) (Z.of_nat k)) (gdcoef U cp (Z.of_nat p) (Z.of_nat k)) (Z.to_nat (Z.of_nat p - 1)) (Z.of_nat p - 1)), k0, f, f'.
    split.
    { apply (bs_derivative_gtri c n (Z.of_nat p) (Z.of_nat k) _ _ t Hpts Hkn ltac:(unfold n; lia) Hper
               (fdiff_nonzero prec emax Htol) fpos_nonzero El ltac:(unfold n; lia)). }
    assert (Ef : f' (B2R t) = gtri (gstep (fun i => B2R (U i)) (B2R t) (Z.of_nat p - 1) (Z.of_nat k))
       (gdcoef (fun i => B2R (U i)) cp' (Z.of_nat p) (Z.of_nat k)) (Z.to_nat (Z.of_nat p - 1)) (Z.of_nat p - 1)) by congruence.
    clear Ed. set (q := (p - 1)%nat). replace (Z.of_nat p - 1)%Z with (Z.of_nat q) in * by (unfold q; lia). rewrite Nat2Z.id in *.
    assert (Hk' : IZR (Z.of_nat p) = INR p) by (now rewrite INR_IZR_INZ).
    assert (Hp1 : 1 <= INR p) by (apply (le_INR 1); lia).
    assert (Hiq : INR p = INR q + 1) by (rewrite <- S_INR; f_equal; unfold q; lia).
    pose proof (pos_INR q) as Hq0.
    assert (Huq : 24 * INR q * u <= 1) by nra.
    pose proof (prec_gt_0 prec). pose proof (prec_lt_emax prec emax).
    assert (Heu : eta <= u) by (unfold underflow_error, unit_roundoff; apply bpow_le; lia).
    assert (Hu24 : u <= / 24) by nra.
    assert (Hph : 0 < INR p / h) by (apply Rmult_lt_0_compat; [lra|apply Rinv_0_lt_compat; lra]).
    assert (HL0 : 0 <= L) by (unfold L; nra).
    set (A := 12 / 10 * L + (1 + 22 / 10 * M) * eta).
    set (E := 44 / 10 * u * L + (1 + 22 / 10 * M) * eta).
    assert (HMe : 0 <= M * eta <= / 24 * M) by (split; nra).
    assert (HA0 : 0 <= A) by (unfold A; nra).
    assert (HE0 : 0 <= E) by (unfold E; nra).
    assert (HAL : L <= A) by (unfold A; nra).
    assert (HW2 : bpow radix2 (emax - 1) = 2 * bpow radix2 (emax - 2)).
    { replace (emax - 1)%Z with (1 + (emax - 2))%Z by lia. rewrite bpow_plus. reflexivity. }
    assert (HW : 1 <= bpow radix2 (emax - 2)).
    { change 1 with (bpow radix2 0). apply bpow_le.
      assert (prec <> 1)%Z; [|lia]. intros Epr. unfold unit_roundoff in Hu24. rewrite Epr in Hu24.
      assert (E2 : bpow radix2 (- (1)) = / 2) by reflexivity. rewrite E2 in Hu24. lra. }
    assert (HAW : A <= bpow radix2 (emax - 1)) by (rewrite HW2; unfold A; nra).
    assert (HUr : forall m, (0 <= m < n + Z.of_nat p + 1)%Z -> is_finite (U m) = true /\ Rabs (B2R (U m)) <= bpow radix2 (emax - 2)).
    { intros m Hm. assert (HI : In (U m) (bs_knots c)) by (apply nth_In; unfold n in Hm; lia). apply (HK _ HI). }
    assert (Hgap : forall a b, (0 <= a <= Z.of_nat k)%Z -> (Z.of_nat k + 1 <= b < n + Z.of_nat p + 1)%Z ->
      B2R (U a) <= B2R t <= B2R (U b) /\ h < B2R (U b) - B2R (U a)).
    { intros a b Ha1 Hb1. pose proof (vb_sorted _ _ Hv) as Hso. unfold U. rewrite <- !EU.
      assert (G1 : nth (Z.to_nat a) knots 0 <= nth k knots 0).
      { apply Hso. unfold knots. rewrite map_length. unfold n in *. lia. }
      assert (G2 : nth (k + 1) knots 0 <= nth (Z.to_nat b) knots 0).
      { apply Hso. unfold knots. rewrite map_length. unfold n in *. lia. }
      split; [lra|]. apply Ha; [unfold knots; rewrite map_length; unfold n in *; lia|lra]. }
    assert (HT : forall i, (i < d)%nat -> near prec emax (growth u eta A q) (growth u eta A q - A + E + 2 * INR q * (5 * u + eta) * A)
        (coord d i (gtri (gstep U t (Z.of_nat q) (Z.of_nat k)) (gdcoef U cp (Z.of_nat p) (Z.of_nat k)) q (Z.of_nat q)))
        (coord d i (f' (B2R t)))).
    { intros i Hi. rewrite Ef. apply deboor_near; try assumption.
      - unfold q. lia.
      - intros j Hj. apply HUr. unfold n, q in *. lia.
      - intros a b Ha1 Hb1. destruct (Hgap a b) as [G1 G2]; [unfold q in *; lia|unfold n, q in *; lia|]. split; [exact G1|lra].
      - intros j Hj. unfold gdcoef. rewrite gcoord_mul, gcoord_sub, coord_mul, coord_sub by exact Hi.
        assert (Hnth : forall m, (m < length (bs_pts c))%nat -> coord d i (nth m rp p0) = B2R (coord d i (nth m (bs_pts c) p0)) /\
          is_finite (coord d i (nth m (bs_pts c) p0)) = true /\ Rabs (B2R (coord d i (nth m (bs_pts c) p0))) <= M).
        { intros m Hm. unfold rp. rewrite (nth_indep (map (vreal d) (bs_pts c)) p0 (vreal d p0)) by (rewrite map_length; lia).
          rewrite map_nth, (vreal_coord prec emax). split; [reflexivity|].
          destruct (HP (nth m (bs_pts c) p0)) as [H1 H2]; [apply nth_In; exact Hm|].
          split; [now apply (vfinite_coord prec emax d)|]. pose proof (H2 i Hi) as H3. rewrite (vreal_coord prec emax) in H3. exact H3. }
        unfold cp, cp'.
        destruct (Hnth (Z.to_nat (Z.of_nat k - Z.of_nat p + (j + 1))) ltac:(unfold q in *; lia)) as (Eca & Fa & Ba).
        destruct (Hnth (Z.to_nat (Z.of_nat k - Z.of_nat p + j)) ltac:(unfold q in *; lia)) as (Ecb & Fb & Bb).
        rewrite Eca, Ecb. unfold gquot.
        set (i1 := (j + Z.of_nat k + 1)%Z). set (i0 := (i1 - Z.of_nat p)%Z).
        destruct (HUr i1 ltac:(unfold i1, n, q in *; lia)) as [F1 B1]. destruct (HUr i0 ltac:(unfold i0, i1, n, q in *; lia)) as [F0 B0].
        destruct (Hgap i0 i1) as [_ G2]; [unfold i0, i1, n, q in *; lia|unfold i1, n, q in *; lia|].
        destruct (quot_near (Z.of_nat p) _ _ (U i0) (U i1) M h ltac:(lia) ltac:(rewrite Hk'; exact Hu) Fa Fb Ba Bb F0 F1 B0 B1
          ltac:(lra) ltac:(lra) ltac:(rewrite Hk'; exact HKO) ltac:(rewrite Hk'; exact HLO)) as (Dp & Df & QN & QB).
        rewrite Hk' in QN, QB. fold L in QN, QB. fold A in QN. fold E in QN.
        assert (Ec : slt (s0 : num) (ssub (U i1) (U i0)) = true).
        { cbn [slt ssub s0 FOd ieee_ops]. rewrite Bltb_correct; [|reflexivity|exact Df]. apply Rlt_bool_true. simpl. exact Dp. }
        rewrite Ec.
        assert (Ec' : slt (s0 : R) (ssub (B2R (U i1)) (B2R (U i0))) = true).
        { cbn [slt ssub s0 R_ops]. destruct (Rltb_spec 0 (B2R (U i1) - B2R (U i0))); [reflexivity|lra]. }
        rewrite Ec'. cbn [sdiv ssub sofZ R_ops]. rewrite Hk'. split; [exact QN|lra].
      - apply (growth_finite prec emax); [exact HA0|exact Huq|exact HAW]. }
    split; [apply (vfinite_coord prec emax d); intros i Hi; apply (HT i Hi)|].
    split; [exact Hspan|]. split; [exact Hne|]. split; [exact HF|]. split; [exact HD|].
    intros i Hi. rewrite (vreal_coord prec emax). eapply Rle_trans; [apply (HT i Hi)|].
    pose proof (growth_bound prec emax A q HA0 Huq) as HG. rewrite Hiq.
    assert (HuL : 0 <= u * L) by nra. assert (HeL : 0 <= eta * L) by nra.
    assert (HuMe : 0 <= u * (M * eta) <= / 24 * (M * eta)) by (split; [nra|apply Rmult_le_compat_r; lra]).
    assert (Hue : 0 <= u * eta <= / 24 * eta) by (split; nra).
    assert (Hee : 0 <= eta * eta <= / 24 * eta) by (split; nra).
    assert (HeMe : 0 <= eta * (M * eta) <= / 24 * (M * eta)) by (split; [nra|apply Rmult_le_compat_r; lra]).
    assert (EuA : u * A = 12 / 10 * (u * L) + u * eta + 22 / 10 * (u * (M * eta))) by (unfold A; field).
    assert (EeA : eta * A = 12 / 10 * (eta * L) + eta * eta + 22 / 10 * (eta * (M * eta))) by (unfold A; field).
    assert (HB1 : 14 * (u * A) + 2 * (eta * A) + 3 * eta <= 17 * (u * L) + 4 * eta + 4 * (M * eta) + 3 * (eta * L)) by lra.
    assert (HB2 : E <= 17 * (u * L) + 4 * eta + 4 * (M * eta) + 3 * (eta * L)) by (unfold E; lra).
    replace ((INR q + 1) * (17 * u * L + (4 + 4 * M + 3 * L) * eta)) with
      (INR q * (17 * (u * L) + 4 * eta + 4 * (M * eta) + 3 * (eta * L)) + (17 * (u * L) + 4 * eta + 4 * (M * eta) + 3 * (eta * L))) by ring.
    assert (INR q * (14 * (u * A) + 2 * (eta * A) + 3 * eta) <= INR q * (17 * (u * L) + 4 * eta + 4 * (M * eta) + 3 * (eta * L)))
      by (apply Rmult_le_compat_l; lra).
    lra.
  Qed.
End Float.

(** The degree over the knot distance is far from overflow. *)
Lemma quotient_small (p : nat) (h u : R) (e : Z) : 24 * INR p * u <= 1 -> / IZR (10 ^ 15) <= h -> 0 < u -> / u <= bpow radix2 e -> (0 <= e)%Z ->
  INR p / h <= bpow radix2 (e + 50).
Proof.
  intros H1 H2 H3 H4 He. assert (H15 : 0 < / IZR (10 ^ 15)) by (apply Rinv_0_lt_compat, IZR_lt; reflexivity).
  rewrite bpow_plus. apply Rmult_le_compat.
  - apply pos_INR.
  - apply Rlt_le, Rinv_0_lt_compat. lra.
  - eapply Rle_trans; [|exact H4]. apply (Rmult_le_reg_r u); [exact H3|]. rewrite Rinv_l by lra. pose proof (pos_INR p). nra.
  - apply Rle_trans with (IZR (10 ^ 15)).
    + rewrite <- (Rinv_inv (IZR (10 ^ 15))). apply Rinv_le_contravar; lra.
    + change (bpow radix2 50) with (IZR (2 ^ 50)). apply IZR_le. discriminate.
Qed.

Lemma bspline_derivative_double : forall (d : nat) (c : bspline double (vec double d)) (t : double) (M h : R),
  let knots := map B2R (bs_knots c) in
  let rp := map (vreal d) (bs_pts c) in
  let p := bspline_degree rp knots in
  let L := 2 * (INR p / h) * M in
  valid_bspline rp knots -> / IZR (10 ^ 15) <= h -> knots_apart h knots -> bs_periodic c = false ->
  (forall x, In x (bs_knots c) -> is_finite x = true /\ Rabs (B2R x) <= bpow radix2 1022) ->
  0 <= M <= bpow radix2 1022 -> L <= bpow radix2 1022 -> 24 * INR p * unit_roundoff 53 <= 1 ->
  (forall a, In a (bs_pts c) -> vfinite d a /\ forall i, (i < d)%nat -> Rabs (coord d i (vreal d a)) <= M) ->
  is_finite t = true -> lower_of rp knots <= B2R t <= upper_of rp knots ->
  (nth p knots 0 < nth (p + 1) knots 0 \/ lower_of rp knots < B2R t) ->
  exists (q : vec double d) (k : nat) (f f' : R -> vec R d),
    @bs_evaluate_derivative double (vec double d) double_ops (@vec_ops double double_ops d) c t = Ok q /\ vfinite d q /\
    span_set knots (upper_of rp knots) k (B2R t) /\ nth k knots 0 < nth (k + 1) knots 0 /\
    (forall x, span_set knots (upper_of rp knots) k x -> (nth p knots 0 < nth (p + 1) knots 0 \/ lower_of rp knots < x) ->
       lower_of rp knots <= x <= upper_of rp knots /\ bspline_curve rp knots x = f x) /\
    (forall x, vderiv f x (f' x)) /\
    forall i, (i < d)%nat ->
      Rabs (coord d i (vreal d q) - coord d i (f' (B2R t)))
      <= INR p * (17 * unit_roundoff 53 * L + (4 + 4 * M + 3 * L) * underflow_error 53 1024).
Proof.
  intros d c t M h knots rp p L Hv Hh Ha Hper HK HM HL Hu HP Ft Ht Hs.
  apply (@bspline_derivative_error 53 1024 prec64 max64 d c t M h tol_double Hv Hh Ha Hper HK HM); try assumption.
  eapply Rle_trans; [apply (quotient_small p h (unit_roundoff 53) 53 Hu Hh (u_pos 53))|apply bpow_le; lia].
  - unfold unit_roundoff. rewrite bpow_opp, Rinv_inv. lra.
  - lia.
Qed.

Lemma bspline_derivative_float : forall (d : nat) (c : bspline float32 (vec float32 d)) (t : float32) (M h : R),
  let knots := map B2R (bs_knots c) in
  let rp := map (vreal d) (bs_pts c) in
  let p := bspline_degree rp knots in
  let L := 2 * (INR p / h) * M in
  valid_bspline rp knots -> / IZR (10 ^ 15) <= h -> knots_apart h knots -> bs_periodic c = false ->
  (forall x, In x (bs_knots c) -> is_finite x = true /\ Rabs (B2R x) <= bpow radix2 126) ->
  0 <= M <= bpow radix2 126 -> L <= bpow radix2 126 -> 24 * INR p * unit_roundoff 24 <= 1 ->
  (forall a, In a (bs_pts c) -> vfinite d a /\ forall i, (i < d)%nat -> Rabs (coord d i (vreal d a)) <= M) ->
  is_finite t = true -> lower_of rp knots <= B2R t <= upper_of rp knots ->
  (nth p knots 0 < nth (p + 1) knots 0 \/ lower_of rp knots < B2R t) ->
  exists (q : vec float32 d) (k : nat) (f f' : R -> vec R d),
    @bs_evaluate_derivative float32 (vec float32 d) float32_ops (@vec_ops float32 float32_ops d) c t = Ok q /\ vfinite d q /\
    span_set knots (upper_of rp knots) k (B2R t) /\ nth k knots 0 < nth (k + 1) knots 0 /\
    (forall x, span_set knots (upper_of rp knots) k x -> (nth p knots 0 < nth (p + 1) knots 0 \/ lower_of rp knots < x) ->
       lower_of rp knots <= x <= upper_of rp knots /\ bspline_curve rp knots x = f x) /\
    (forall x, vderiv f x (f' x)) /\
    forall i, (i < d)%nat ->
      Rabs (coord d i (vreal d q) - coord d i (f' (B2R t)))
      <= INR p * (17 * unit_roundoff 24 * L + (4 + 4 * M + 3 * L) * underflow_error 24 128).
Proof.
  intros d c t M h knots rp p L Hv Hh Ha Hper HK HM HL Hu HP Ft Ht Hs.
  apply (@bspline_derivative_error 24 128 prec32 max32 d c t M h tol_float Hv Hh Ha Hper HK HM); try assumption.
  eapply Rle_trans; [apply (quotient_small p h (unit_roundoff 24) 24 Hu Hh (u_pos 24))|apply bpow_le; lia].
  - unfold unit_roundoff. rewrite bpow_opp, Rinv_inv. lra.
  - lia.
Qed.

Lemma dspline_derivative_case : let c := dspline in let t := dofQ (3 # 10) in
  let knots := map B2R (bs_knots c) in
  let rp := map (vreal 2) (bs_pts c) in
  let p := bspline_degree rp knots in
  let h := / 4 in
  let L := 2 * (INR p / h) * 4 in
  p = 2%nat /\ valid_bspline rp knots /\ / IZR (10 ^ 15) <= h /\ knots_apart h knots /\ bs_periodic c = false /\
  (forall x, In x (bs_knots c) -> is_finite x = true /\ Rabs (B2R x) <= bpow radix2 1022) /\
  0 <= 4 <= bpow radix2 1022 /\ L <= bpow radix2 1022 /\ 24 * INR p * unit_roundoff 53 <= 1 /\
  (forall a, In a (bs_pts c) -> vfinite 2 a /\ forall i, (i < 2)%nat -> Rabs (coord 2 i (vreal 2 a)) <= 4) /\
  is_finite t = true /\ lower_of rp knots <= B2R t <= upper_of rp knots /\
  nth p knots 0 < nth (p + 1) knots 0.
Proof.
  cbv zeta. destruct spline_case as (Hp & V & _ & Hper & HK & _ & Hu & HP & Ft & Ht & Hs).
  assert (E : bspline_degree (map (vreal 2) (bs_pts dspline)) (map B2R (bs_knots dspline)) = 2%nat) by reflexivity.
  rewrite E. rewrite Hp in Hs, Hu.
  set (t := dofQ (3 # 10)) in *. clearbody t.
  split; [reflexivity|]. split.
  { destruct V as [V1 V2 V3 V4]. split; rewrite ?E, ?map_length; rewrite ?Hp in *; assumption. }
  split; [change (IZR (10 ^ 15)) with 1000000000000000; lra|]. split.
  { rewrite dspline_knots. intros i j Hij. cbn [length] in Hij.
    do 7 (destruct i as [|i]; [do 7 (destruct j as [|j]; [simpl nth; lra|]); lia|]). lia. }
  split; [exact Hper|]. split; [exact HK|]. split; [split; [lra|apply big_bound; lia]|].
  split; [apply Rle_trans with (bpow radix2 6); [simpl; lra|apply bpow_le; lia]|].
  split; [exact Hu|]. split; [exact HP|]. split; [exact Ft|]. split; [|exact Hs].
  unfold lower_of, upper_of in *. rewrite E, map_length. rewrite Hp in Ht. exact Ht.
Qed.
