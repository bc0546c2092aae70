(** Readable error bounds, the two standard formats, and single runs. *)
From Coq Require Import Reals Lra Lia ZArith QArith List Bool.
From Flocq Require Import Core IEEE754.BinarySingleNaN.
From Verif Require Import Monad MonadFacts Scalar ScalarFacts Spec SpecFacts ModelCurve ModelBezier BezierThms
  ModelBSpline BSplineFacts BSplineThms BSplineThms2 SpecFloat ModelFloat FloatFacts FloatThms FloatThms2.
Import ListNotations.
Local Open Scope R_scope.

Section Bounds.
  Context (prec emax : Z) {Hprec : Prec_gt_0 prec} {Hmax : Prec_lt_emax prec emax}.
  Notation num := (binary_float prec emax).
  Notation u := (unit_roundoff prec).
  Notation eta := (underflow_error prec emax).
  Notation Omega := (bpow radix2 emax).
  Local Instance FO3 : ScalarOps num := ieee_ops prec emax.

  Lemma pow_inv_bound x m : 0 <= x -> INR m * x <= 1 -> (1 + x) ^ m * (1 - INR m * x) <= 1.
  Proof.
    intros Hx. induction m as [|m IH]; intros Hm; [simpl; lra|]. rewrite S_INR in *.
    assert (H : 0 <= (1 + x) ^ m) by (apply pow_le; lra).
    pose proof (pos_INR m). assert (Hm' : INR m * x <= 1) by nra. specialize (IH Hm').
    replace ((1 + x) ^ S m) with ((1 + x) ^ m * (1 + x)) by (simpl; ring).
    eapply Rle_trans; [|exact IH]. rewrite Rmult_assoc. apply Rmult_le_compat_l; [exact H|]. nra.
  Qed.

  Lemma growth_bound M n : 0 <= M -> 24 * INR n * u <= 1 ->
    growth u eta M n <= M + INR n * (4 * u * M + 3 * eta).
  Proof.
    intros HM Hn. unfold growth. pose proof (u_pos prec) as Hu. pose proof (eta_pos prec emax) as He.
    pose proof (pos_INR n) as Hn0.
    assert (H3 : INR (3 * n) = 3 * INR n) by (rewrite mult_INR; simpl; ring).
    pose proof (pow_inv_bound u (3 * n) ltac:(lra)) as HX. rewrite H3 in HX. specialize (HX ltac:(nra)).
    set (X := (1 + u) ^ (3 * n)) in *. set (w := INR n * u) in *.
    assert (Hw : 0 <= w <= / 24) by (unfold w; nra).
    replace (1 - 3 * INR n * u) with (1 - 3 * w) in HX by (unfold w; ring).
    assert (HX1 : X <= 1 + 4 * w).
    { apply (Rmult_le_reg_r (1 - 3 * w)); [lra|]. eapply Rle_trans; [exact HX|]. nra. }
    assert (HX0 : 0 <= X) by (apply pow_le; lra).
    replace (INR n * (4 * u * M + 3 * eta)) with (4 * w * M + 3 * (INR n * eta)) by (unfold w; ring).
    assert (Hne : 0 <= INR n * eta) by nra.
    replace (X * (M + 2 * INR n * eta)) with (X * M + 2 * (X * (INR n * eta))) by ring.
    assert (X * M <= (1 + 4 * w) * M) by (apply Rmult_le_compat_r; lra).
    assert (X * (INR n * eta) <= 3 / 2 * (INR n * eta)) by (apply Rmult_le_compat_r; lra).
    lra.
  Qed.

  Lemma growth_finite M n : 0 <= M -> 24 * INR n * u <= 1 -> M <= bpow radix2 (emax - 1) ->
    growth u eta M n < Omega.
  Proof.
    intros HM Hn HMO. eapply Rle_lt_trans; [apply growth_bound; assumption|].
    pose proof (u_pos prec) as Hu. pose proof (eta_pos prec emax) as He. pose proof (pos_INR n) as Hn0.
    assert (HO : Omega = 2 * bpow radix2 (emax - 1)).
    { change 2 with (bpow radix2 1). rewrite <- bpow_plus. f_equal. lia. }
    pose proof (prec_gt_0 prec). pose proof (prec_lt_emax prec emax).
    assert (H1 : 1 <= bpow radix2 (emax - 1)) by (change 1 with (bpow radix2 0); apply bpow_le; lia).
    assert (Heu : eta <= u) by (unfold underflow_error, unit_roundoff; apply bpow_le; lia).
    assert (INR n * eta <= / 24) by nra.
    assert (INR n * u * M <= / 24 * M) by (apply Rmult_le_compat_r; lra).
    rewrite HO. nra.
  Qed.

  Lemma bezier_error d (pts : list (vec num d)) (t : num) n M :
    length pts = S n -> 0 <= M <= bpow radix2 (emax - 1) -> 24 * INR n * u <= 1 ->
    (forall p, In p pts -> vfinite d p /\ forall i, (i < d)%nat -> Rabs (coord d i (vreal d p)) <= M) ->
    is_finite t = true -> 0 <= B2R t <= 1 ->
    exists q, bz_evaluate (mk_bezier pts) t = Ok q /\ vfinite d q /\
      forall i, (i < d)%nat ->
        Rabs (coord d i (vreal d q) - coord d i (bernstein_curve (map (vreal d) pts) (B2R t)))
        <= INR n * (4 * u * M + 3 * eta).
  Proof.
    intros Hn HM Hu Hp Ft Ht.
    destruct (bezier_near prec emax d pts t n M Hn) as (q & E & Hq).
    - intros p i Hin Hi. destruct (Hp p Hin) as [H1 H2]. split; [now apply (vfinite_coord prec emax d)|].
      rewrite <- (vreal_coord prec emax). now apply H2.
    - exact Ft.
    - exact Ht.
    - apply growth_finite; lra.
    - exists q. split; [exact E|]. split.
      + apply (vfinite_coord prec emax d q). intros i Hi. apply (Hq i Hi).
      + intros i Hi. destruct (Hq i Hi) as (_ & _ & He). rewrite (vreal_coord prec emax).
        eapply Rle_trans; [exact He|]. pose proof (growth_bound M n ltac:(lra) Hu). lra.
  Qed.

  Lemma bspline_error d (c : bspline num (vec num d)) (t : num) M :
    let knots := map B2R (bs_knots c) in
    let p := bspline_degree (bs_pts c) knots in
    tol_ok prec emax ->
    valid_bspline (bs_pts c) knots -> knots_apart (/ IZR (10 ^ 15)) knots -> bs_periodic c = false ->
    (forall x, In x (bs_knots c) -> is_finite x = true /\ Rabs (B2R x) <= bpow radix2 (emax - 2)) ->
    0 <= M <= bpow radix2 (emax - 1) -> 24 * INR p * u <= 1 ->
    (forall a, In a (bs_pts c) -> vfinite d a /\ forall i, (i < d)%nat -> Rabs (coord d i (vreal d a)) <= M) ->
    is_finite t = true -> lower_of (bs_pts c) knots <= B2R t <= upper_of (bs_pts c) knots ->
    (nth p knots 0 < nth (p + 1) knots 0 \/ lower_of (bs_pts c) knots < B2R t) ->
    exists q, bs_evaluate c t = Ok q /\ vfinite d q /\
      forall i, (i < d)%nat ->
        Rabs (coord d i (vreal d q) - coord d i (bspline_curve (map (vreal d) (bs_pts c)) knots (B2R t)))
        <= INR p * (14 * u * M + (3 + 2 * M) * eta).
  Proof.
    intros knots p Htol Hv Ha Hper HK HM Hu HP Ft Ht Hs.
    destruct (bspline_near prec emax d c t M Htol Hv Ha Hper HK) as (q & E & Hq).
    - intros a i Hin Hi. destruct (HP a Hin) as [H1 H2]. split; [now apply (vfinite_coord prec emax d)|].
      rewrite <- (vreal_coord prec emax). now apply H2.
    - exact Ft.
    - exact Ht.
    - exact Hs.
    - apply growth_finite; lra || exact Hu.
    - exists q. split; [exact E|]. split.
      + apply (vfinite_coord prec emax d q). intros i Hi. apply (Hq i Hi).
      + intros i Hi. destruct (Hq i Hi) as (_ & _ & He). rewrite (vreal_coord prec emax).
        eapply Rle_trans; [exact He|]. pose proof (growth_bound M p ltac:(lra) Hu). fold knots. fold p. lra.
  Qed.
End Bounds.

(** * Numbers given by their bits *)
Lemma float_value {prec emax : Z} (x : binary_float prec emax) s m e :
  B2SF x = SpecFloat.S754_finite s m e -> is_finite x = true /\ B2R x = IZR (cond_Zopp s (Zpos m)) * bpow radix2 e.
Proof.
  intros H. rewrite <- is_finite_SF_B2SF, <- SF2R_B2SF, H. split; reflexivity.
Qed.

(** The literal 1e-16. *)
Lemma tol_double : @tol_ok 53 1024 prec64 max64.
Proof.
  unfold tol_ok, btolT. cbn [sofQ FO2 ieee_ops].
  destruct (float_value (@bofQ 53 1024 prec64 max64 (1 # (10 ^ 16)%positive)) false 8112963841460668 (-106)) as [F E].
  { vm_compute. reflexivity. }
  rewrite E. split; [exact F|]. change (bpow radix2 (-106)) with (/ IZR (2 ^ 106)).
  change (IZR (10 ^ 16)) with 10000000000000000. change (IZR (2 ^ 106)) with 81129638414606681695789005144064.
  cbn [cond_Zopp]. lra.
Qed.
Lemma tol_float : @tol_ok 24 128 prec32 max32.
Proof.
  unfold tol_ok, btolT. cbn [sofQ FO2 ieee_ops].
  destruct (float_value (@bofQ 24 128 prec32 max32 (1 # (10 ^ 16)%positive)) false 15111572 (-77)) as [F E].
  { vm_compute. reflexivity. }
  rewrite E. split; [exact F|]. change (bpow radix2 (-77)) with (/ IZR (2 ^ 77)).
  change (IZR (10 ^ 16)) with 10000000000000000. change (IZR (2 ^ 77)) with 151115727451828646838272.
  cbn [cond_Zopp]. lra.
Qed.
