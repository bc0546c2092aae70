(** Rational curves in IEEE arithmetic. *)
From Coq Require Import Reals Lra Lia ZArith QArith List Bool.
From Flocq Require Import Core IEEE754.BinarySingleNaN.
From Verif Require Import Monad MonadFacts Scalar ScalarFacts Spec SpecFacts SpecPatch ModelCurve ModelBezier BezierThms
  ModelBSpline BSplineFacts BSplineThms BSplineThms2 ModelRational PatchHull SpecFloat ModelFloat ModelFloatWrap ModelFloatRational
  FloatFacts FloatThms FloatThms2 FloatThms3 FloatCases FloatRuns FloatDeriv FloatTotal.
Import ListNotations.
Local Open Scope R_scope.

(** ** Rows *)
Section Rows.
  Context {T : Type} {SO : ScalarOps T}.
  Lemma gcoord_vhead d i (a : vec T (S d)) : (i < d)%nat -> coord d i (vhead d a) = coord (S d) i a.
  Proof.
    revert i a; induction d as [|d IH]; intros i a Hi; [lia|]. destruct i as [|i]; [reflexivity|].
    cbn [vhead]. change (coord d i (vhead d (snd a)) = coord (S d) i (snd a)). apply IH. lia.
  Qed.
  Lemma gvlast_coord d (a : vec T (S d)) : vlast d a = coord (S d) d a.
  Proof. induction d as [|d IH]; [reflexivity|]. exact (IH (snd a)). Qed.
  Lemma gcoord_vsnoc d i (v : vec T d) w : (i < d)%nat -> coord (S d) i (vsnoc d v w) = coord d i v.
  Proof.
    revert i v; induction d as [|d IH]; intros i v Hi; [lia|]. destruct i as [|i]; [reflexivity|].
    cbn [vsnoc]. change (coord (S d) i (vsnoc d (snd v) w) = coord d i (snd v)). apply IH. lia.
  Qed.
  Lemma gcoord_vsnoc_last d (v : vec T d) w : coord (S d) d (vsnoc d v w) = w.
  Proof. induction d as [|d IH]; [reflexivity|]. exact (IH (snd v)). Qed.
End Rows.

(** ** Means with perturbed data *)
Lemma rsum_mono n f g : (forall i, (i < n)%nat -> f i <= g i) -> rsum n f <= rsum n g.
Proof. exact (rsum_le n f g). Qed.
Lemma mean_err n b f g e : simplex n b -> (forall i, (i < n)%nat -> Rabs (f i - g i) <= e) ->
  Rabs (rsum n (fun i => b i * f i) - rsum n (fun i => b i * g i)) <= e.
Proof.
  intros [B0 B1] H. rewrite <- rsum_minus. apply Rabs_le. split.
  - replace (- e) with (rsum n (fun i => (- e) * b i)) by (rewrite rsum_scal, B1; ring).
    apply rsum_mono. intros i Hi. specialize (H i Hi). apply Rabs_le_inv in H. specialize (B0 i Hi). nra.
  - replace e with (rsum n (fun i => e * b i)) by (rewrite rsum_scal, B1; ring).
    apply rsum_mono. intros i Hi. specialize (H i Hi). apply Rabs_le_inv in H. specialize (B0 i Hi). nra.
Qed.
Lemma mean_low n b w w0 : simplex n b -> (forall i, (i < n)%nat -> w0 <= w i) -> w0 <= rsum n (fun i => b i * w i).
Proof.
  intros [B0 B1] H. replace w0 with (rsum n (fun i => w0 * b i)) by (rewrite rsum_scal, B1; ring).
  apply rsum_mono. intros i Hi. specialize (H i Hi). specialize (B0 i Hi). nra.
Qed.
Lemma mean_size n b w x M : simplex n b -> (forall i, (i < n)%nat -> 0 <= w i) -> (forall i, (i < n)%nat -> Rabs (x i) <= M) ->
  Rabs (rsum n (fun i => b i * (w i * x i))) <= M * rsum n (fun i => b i * w i).
Proof.
  intros [B0 B1] Hw H. rewrite <- rsum_scal. apply Rabs_le. split.
  - replace (- rsum n (fun i => M * (b i * w i))) with (rsum n (fun i => (-1) * (M * (b i * w i)))) by (rewrite rsum_scal; ring).
    apply rsum_mono. intros i Hi. specialize (H i Hi). apply Rabs_le_inv in H.
    pose proof (Rmult_le_pos _ _ (B0 i Hi) (Hw i Hi)). nra.
  - apply rsum_mono. intros i Hi. specialize (H i Hi). apply Rabs_le_inv in H.
    pose proof (Rmult_le_pos _ _ (B0 i Hi) (Hw i Hi)). nra.
Qed.

Lemma knots_simplex {P} (pts : list P) knots t : valid_bspline pts knots ->
  (nth (bspline_degree pts knots) knots 0 < nth (bspline_degree pts knots + 1) knots 0 \/ lower_of pts knots < t) ->
  lower_of pts knots <= t <= upper_of pts knots -> simplex (length pts) (bspline_basis (length pts) knots t).
Proof.
  intros [V1 V2 V3 V4] Hs Ht. unfold bspline_degree, lower_of, upper_of in *. unfold bspline_degree in *. set (p := (length knots - length pts - 1)%nat) in *.
  assert (E : length pts = dir_count p knots) by (unfold dir_count; lia). rewrite E. apply dir_simplex.
  - split; [lia|exact V3|]. unfold dir_lo, dir_hi. rewrite <- E. exact V4.
  - unfold dir_lo, dir_hi. rewrite <- E. exact Ht.
  - destruct Hs as [Hs|Hs]; [now left|right; exact Hs].
Qed.

Section Float.
  Context (prec emax : Z) {Hprec : Prec_gt_0 prec} {Hmax : Prec_lt_emax prec emax}.
  Notation num := (binary_float prec emax).
  Notation u := (unit_roundoff prec).
  Notation eta := (underflow_error prec emax).
  Notation Omega := (bpow radix2 emax).
  Notation fexp := (SpecFloat.fexp prec emax).
  Local Instance FO8 : ScalarOps num := ieee_ops prec emax.

  (** One rounded quotient of perturbed data. *)
  Lemma quot_spec (N D : num) X Y e f M w0 :
    is_finite N = true -> is_finite D = true -> 0 < w0 -> 0 <= M -> 0 <= e -> 0 <= f ->
    Rabs (B2R N - X) <= e -> Rabs (B2R D - Y) <= f -> w0 <= Y -> Rabs X <= M * Y -> 2 * f <= w0 ->
    let delta := 2 * (e + M * f) / w0 in
    (1 + u) * (M + delta) + eta < Omega ->
    is_finite (Bdiv mode_NE N D) = true /\ Rabs (B2R (Bdiv mode_NE N D) - / Y * X) <= (1 + u) * delta + u * M + eta.
  Proof.
    intros FN FD Hw0 HM He Hf HN HD HY HX H2f delta HO.
    pose proof (u_pos prec) as Hu. pose proof (eta_pos prec emax) as Het.
    apply Rabs_le_inv in HN. apply Rabs_le_inv in HD. apply Rabs_le_inv in HX.
    assert (HDp : / 2 * w0 <= B2R D) by lra. assert (HYp : 0 < Y) by lra.
    set (c := / Y * X). assert (Hc : Rabs c <= M).
    { unfold c. apply Rabs_le. assert (Hi : 0 < / Y) by now apply Rinv_0_lt_compat.
      assert (HY1 : / Y * Y = 1) by (apply Rinv_l; lra).
      split.
      - replace (- M) with (/ Y * (- (M * Y))) by (rewrite <- Ropp_mult_distr_r; replace (/ Y * (M * Y)) with (M * (/ Y * Y)) by ring; rewrite HY1; ring).
        apply Rmult_le_compat_l; lra.
      - replace M with (/ Y * (M * Y)) by (replace (/ Y * (M * Y)) with (M * (/ Y * Y)) by ring; rewrite HY1; ring).
        apply Rmult_le_compat_l; lra. }
    assert (HXc : X = c * Y) by (unfold c; field; lra).
    set (r := B2R N / B2R D).
    assert (Hr : Rabs (r - c) <= delta).
    { assert (E : r - c = ((B2R N - X) - c * (B2R D - Y)) * / B2R D) by (unfold r; rewrite HXc; field; lra).
      rewrite E, Rabs_mult, (Rabs_pos_eq (/ B2R D)) by (left; apply Rinv_0_lt_compat; lra).
      assert (A1 : Rabs (B2R N - X - c * (B2R D - Y)) <= e + M * f).
      { eapply Rle_trans; [apply Rabs_triang|]. rewrite Rabs_Ropp, Rabs_mult.
        apply Rplus_le_compat; [apply Rabs_le; lra|]. apply Rmult_le_compat; try apply Rabs_pos; [exact Hc|apply Rabs_le; lra]. }
      unfold delta. replace (2 * (e + M * f) / w0) with ((e + M * f) * / (/ 2 * w0)) by (field; lra).
      apply Rmult_le_compat; [apply Rabs_pos|left; apply Rinv_0_lt_compat; lra|exact A1|].
      apply Rinv_le_contravar; lra. }
    assert (Hra : Rabs r <= M + delta).
    { replace r with ((r - c) + c) by ring. eapply Rle_trans; [apply Rabs_triang|]. lra. }
    pose proof (Bdiv_correct prec emax Hprec Hmax mode_NE N D ltac:(lra)) as HB. fold r in HB.
    pose proof (fl_err prec emax r) as Hfl.
    set (v := round radix2 fexp (round_mode mode_NE) r) in *.
    assert (Hv : Rabs v <= (1 + u) * Rabs r + eta).
    { replace v with ((v - r) + r) by ring. eapply Rle_trans; [apply Rabs_triang|]. lra. }
    assert (Hur : u * Rabs r <= u * (M + delta)) by (apply Rmult_le_compat_l; lra).
    rewrite Rlt_bool_true in HB by lra.
    destruct HB as (Ev & Fv & _). rewrite FN in Fv. split; [exact Fv|]. rewrite Ev.
    replace (v - c) with ((v - r) + (r - c)) by ring. eapply Rle_trans; [apply Rabs_triang|]. lra.
  Qed.

  (** The homogeneous control points. *)
  Definition frow {d} (p : vec num d) (w : num) : vec num (S d) := vsnoc d (pmul w p) w.
  Definition frows {d} (pts : list (vec num d)) (ws : list num) : list (vec num (S d)) :=
    map (fun x => frow (fst x) (snd x)) (combine pts ws).
  Lemma frows_length {d} (pts : list (vec num d)) ws : length ws = length pts -> length (frows pts ws) = length pts.
  Proof. intros H. unfold frows. rewrite map_length, combine_length. lia. Qed.
  Lemma frows_nth {d} (pts : list (vec num d)) ws j : length ws = length pts -> (j < length pts)%nat ->
    nth j (frows pts ws) p0 = frow (nth j pts p0) (nth j ws s0).
  Proof.
    intros H Hi. unfold frows. set (g := fun x : vec num d * num => frow (fst x) (snd x)).
    rewrite (nth_indep _ p0 (g (p0, s0))) by (rewrite map_length, combine_length; lia).
    rewrite map_nth, combine_nth by (symmetry; exact H). reflexivity.
  Qed.
  Lemma frow_head {d} (p : vec num d) w i : (i < d)%nat -> coord (S d) i (frow p w) = Bmult mode_NE w (coord d i p).
  Proof. intros Hi. unfold frow. rewrite gcoord_vsnoc by exact Hi. now rewrite gcoord_mul. Qed.
  Lemma frow_last {d} (p : vec num d) w : coord (S d) d (frow p w) = w.
  Proof. apply gcoord_vsnoc_last. Qed.

  Definition sized {d} (pts : list (vec num d)) (M : R) : Prop :=
    forall p, In p pts -> vfinite d p /\ forall i, (i < d)%nat -> Rabs (coord d i (vreal d p)) <= M.
  Definition weighed (ws : list num) (w0 W : R) : Prop :=
    forall w, In w ws -> is_finite w = true /\ w0 <= B2R w <= W.

  Lemma product_spec d (p : vec num d) w i M w0 W : vfinite d p -> (forall i, (i < d)%nat -> Rabs (coord d i (vreal d p)) <= M) ->
    is_finite w = true -> 0 <= w0 -> w0 <= B2R w <= W -> (i < d)%nat -> 0 <= M -> W * M <= bpow radix2 (emax - 2) ->
    is_finite (Bmult mode_NE w (coord d i p)) = true /\
    Rabs (B2R (Bmult mode_NE w (coord d i p)) - B2R w * B2R (coord d i p)) <= u * (W * M) + eta.
  Proof.
    intros Fp Hp Fw H0 Hw Hi HM HWM.
    pose proof (u_pos prec) as Hu. pose proof (u_le_half prec) as Hu2. pose proof (eta_pos prec emax) as Het.
    pose proof (proj1 (vfinite_coord prec emax d p) Fp i Hi) as Fx.
    pose proof (Hp i Hi) as Hx. rewrite (vreal_coord prec emax) in Hx.
    set (x := coord d i p) in *.
    assert (Ha : Rabs (B2R w * B2R x) <= W * M).
    { rewrite Rabs_mult. apply Rmult_le_compat; try apply Rabs_pos; [rewrite Rabs_pos_eq; lra|exact Hx]. }
    pose proof (Bmult_correct prec emax Hprec Hmax mode_NE w x) as HB.
    pose proof (fl_err prec emax (B2R w * B2R x)) as Hfl.
    set (v := round radix2 fexp (round_mode mode_NE) (B2R w * B2R x)) in *.
    assert (Hur : u * Rabs (B2R w * B2R x) <= u * (W * M)) by (apply Rmult_le_compat_l; lra).
    assert (HOm : Omega = 4 * bpow radix2 (emax - 2)).
    { change 4 with (bpow radix2 2). rewrite <- bpow_plus. f_equal. lia. }
    assert (Heu : eta <= bpow radix2 (emax - 2)).
    { unfold underflow_error. apply bpow_le. unfold Prec_gt_0, Prec_lt_emax in *. lia. }
    pose proof (bpow_gt_0 radix2 (emax - 2)) as Hb.
    assert (Hv : Rabs v <= (1 + u) * (W * M) + eta).
    { replace v with ((v - B2R w * B2R x) + B2R w * B2R x) by ring. eapply Rle_trans; [apply Rabs_triang|]. lra. }
    rewrite Rlt_bool_true in HB.
    2:{ eapply Rle_lt_trans; [exact Hv|]. rewrite HOm. assert (0 <= W * M) by (apply Rmult_le_pos; lra). nra. }
    destruct HB as (Ev & Fv & _). rewrite Fw, Fx in Fv. split; [exact Fv|]. rewrite Ev. lra.
  Qed.

  Lemma h_point_error d (q : vec num (S d)) n b (pts : list (vec num d)) (ws : list num) w0 W M e f :
    simplex n b -> length pts = n -> length ws = n -> sized pts M -> weighed ws w0 W -> 0 < w0 -> 0 <= M ->
    W * M <= bpow radix2 (emax - 2) -> vfinite (S d) q -> 0 <= e -> 0 <= f ->
    (forall i, (i < d)%nat -> Rabs (B2R (coord (S d) i q) -
       rsum n (fun j => b j * B2R (coord (S d) i (nth j (frows pts ws) p0)))) <= e) ->
    Rabs (B2R (coord (S d) d q) - rsum n (fun j => b j * B2R (coord (S d) d (nth j (frows pts ws) p0)))) <= f ->
    2 * f <= w0 ->
    let delta := 2 * (e + (u * (W * M) + eta) + M * f) / w0 in
    (1 + u) * (M + delta) + eta < Omega ->
    vfinite d (f_h_point prec emax q) /\
    forall i, (i < d)%nat ->
      Rabs (coord d i (vreal d (f_h_point prec emax q)) - coord d i (weighted_mean n b (map B2R ws) (map (vreal d) pts)))
      <= (1 + u) * delta + u * M + eta.
  Proof.
    intros Sb Hp Hws HS HW Hw0 HM HWM Fq He Hf Hq Hl H2f delta HO.
    pose proof (u_pos prec) as Hu. pose proof (eta_pos prec emax) as Het.
    assert (Hwj : forall j, (j < n)%nat -> is_finite (nth j ws s0) = true /\ w0 <= B2R (nth j ws s0) <= W).
    { intros j Hj. apply HW. apply nth_In. lia. }
    assert (HW0 : 0 <= u * (W * M)).
    { apply Rmult_le_pos; [lra|]. destruct n as [|n0]; [|].
      - destruct Sb as [_ Sb]. unfold rsum in Sb. cbn in Sb. lra.
      - specialize (Hwj 0%nat ltac:(lia)). apply Rmult_le_pos; lra. }
    assert (HE : forall i, (i < d)%nat ->
      is_finite (Bdiv mode_NE (coord (S d) i q) (coord (S d) d q)) = true /\
      Rabs (B2R (Bdiv mode_NE (coord (S d) i q) (coord (S d) d q)) - coord d i (weighted_mean n b (map B2R ws) (map (vreal d) pts)))
      <= (1 + u) * delta + u * M + eta).
    { intros i Hi.
      assert (Hws_ : forall j, (j < n)%nat -> nth j (map B2R ws) 0 = B2R (nth j ws s0)).
      { intros j Hj. change 0 with (B2R (s0 : num)). apply map_nth. }
      assert (Hps : forall j, (j < n)%nat -> coord d i (nth j (map (vreal d) pts) p0) = B2R (coord d i (nth j pts p0))).
      { intros j Hj. rewrite (nth_indep _ p0 (vreal d p0)) by (rewrite map_length; lia). rewrite map_nth.
        apply (vreal_coord prec emax). }
      unfold weighted_mean. rewrite coord_mul by exact Hi.
      rewrite coord_psum by exact Hi. unfold weight_sum.
      rewrite (rsum_ext n (fun j => b j * nth j (map B2R ws) 0) (fun j => b j * B2R (nth j ws s0)))
        by (intros j Hj; now rewrite Hws_).
      rewrite (rsum_ext n (fun j => coord d i (pmul _ _)) (fun j => b j * (B2R (nth j ws s0) * B2R (coord d i (nth j pts p0)))))
        by (intros j Hj; rewrite coord_mul, Hws_, Hps by assumption; ring).
      apply quot_spec with (e := e + (u * (W * M) + eta)) (f := f) (w0 := w0).
      - exact (proj1 (vfinite_coord prec emax (S d) q) Fq i ltac:(lia)).
      - exact (proj1 (vfinite_coord prec emax (S d) q) Fq d ltac:(lia)).
      - exact Hw0.
      - exact HM.
      - lra.
      - exact Hf.
      - match goal with |- Rabs (?x - ?y) <= _ =>
          replace (x - y) with ((x - rsum n (fun j => b j * B2R (coord (S d) i (nth j (frows pts ws) p0)))) +
            (rsum n (fun j => b j * B2R (coord (S d) i (nth j (frows pts ws) p0))) - y)) by ring end.
        eapply Rle_trans; [apply Rabs_triang|]. apply Rplus_le_compat; [now apply Hq|].
        apply mean_err; [exact Sb|]. intros j Hj. rewrite frows_nth by lia. rewrite frow_head by exact Hi.
        destruct (Hwj j Hj) as [Fw Bw]. destruct (HS (nth j pts p0)) as [Fp Bp]; [apply nth_In; lia|].
        apply (product_spec d (nth j pts p0) (nth j ws s0) i M w0 W); assumption || lra.
      - rewrite (rsum_ext n (fun j => b j * B2R (nth j ws s0)) (fun j => b j * B2R (coord (S d) d (nth j (frows pts ws) p0)))); [exact Hl|].
        intros j Hj. rewrite frows_nth by lia. now rewrite frow_last.
      - apply mean_low; [exact Sb|]. intros j Hj. apply Hwj. exact Hj.
      - apply mean_size; [exact Sb| |].
        + intros j Hj. destruct (Hwj j Hj). lra.
        + intros j Hj. destruct (HS (nth j pts p0)) as [Fp Bp]; [apply nth_In; lia|].
          pose proof (Bp i Hi) as Hx. rewrite (vreal_coord prec emax) in Hx. exact Hx.
      - exact H2f.
      - exact HO. }
    assert (HC : forall i, (i < d)%nat -> coord d i (f_h_point prec emax q) = Bdiv mode_NE (coord (S d) i q) (coord (S d) d q)).
    { intros i Hi. unfold f_h_point. rewrite gcoord_vmap by exact Hi. rewrite gcoord_vhead by exact Hi. now rewrite gvlast_coord. }
    split.
    - apply (vfinite_coord prec emax d). intros i Hi. pose proof (proj1 (HE i Hi)) as H. rewrite <- (HC i Hi) in H. exact H.
    - intros i Hi. rewrite (vreal_coord prec emax). pose proof (proj2 (HE i Hi)) as H. rewrite <- (HC i Hi) in H. exact H.
  Qed.

  (** The size of all the errors together. *)
  Lemma rational_sizes (n : nat) (a W M w0 : R) :
    (4 <= prec)%Z -> 0 < w0 -> w0 <= W -> 0 <= M -> M <= bpow radix2 (emax - 2) -> 4 * u <= a ->
    8 * (INR n + 1) * (a * W + 3 * eta) <= w0 ->
    let H := (1 + u) * (W * M) + eta in
    let e := INR n * (a * H + 3 * eta) in
    let f := INR n * (a * W + 3 * eta) in
    let delta := 2 * (e + (u * (W * M) + eta) + M * f) / w0 in
    0 <= e /\ 0 <= f /\ 2 * f <= w0 /\ (1 + u) * (M + delta) + eta < Omega /\
    (1 + u) * delta + u * M + eta <= W / w0 * M * (5 * INR n * a + 4 * u) + (1 + (7 * INR n * (1 + M) + 5) / w0) * eta.
  Proof.
    intros Hpr Hw0 HW HM HMb Ha Hn H e f delta.
    pose proof (u_pos prec) as Hu. pose proof (eta_pos prec emax) as Het. pose proof (pos_INR n) as Hi.
    assert (Hu16 : u <= / 16).
    { unfold unit_roundoff. change (/ 16) with (bpow radix2 (-4)). apply bpow_le. lia. }
    assert (Hem : (4 < emax)%Z) by (unfold Prec_lt_emax in Hmax; lia).
    assert (HOm : Omega = 4 * bpow radix2 (emax - 2)).
    { change 4 with (bpow radix2 2). rewrite <- bpow_plus. f_equal. lia. }
    assert (HO8 : 8 <= bpow radix2 (emax - 2)) by (change 8 with (bpow radix2 3); apply bpow_le; lia).
    assert (He1 : eta <= / 16).
    { unfold underflow_error. change (/ 16) with (bpow radix2 (-4)). apply bpow_le. unfold Prec_gt_0 in Hprec. lia. }
    set (k := / w0). assert (Hk : 0 < k) by (apply Rinv_0_lt_compat; lra). assert (Hkw : k * w0 = 1) by (apply Rinv_l; lra).
    (* the relative sizes *)
    set (x := INR n * a) in *. set (K := W * k).
    assert (HK : 1 <= K) by (unfold K; replace 1 with (k * w0) by lra; rewrite Rmult_comm; apply Rmult_le_compat_r; lra).
    assert (Hx0 : 0 <= x) by (unfold x; apply Rmult_le_pos; lra).
    assert (Hne : 0 <= INR n * eta) by (apply Rmult_le_pos; lra).
    assert (HaW : 0 <= a * W) by (apply Rmult_le_pos; lra).
    assert (HnaW : 0 <= INR n * (a * W)) by (apply Rmult_le_pos; lra).
    assert (Hall : 8 * (x * K + a * K + 3 * (INR n * eta * k) + 3 * (eta * k)) <= 1).
    { replace 1 with (w0 * k) by lra. replace (8 * (x * K + a * K + 3 * (INR n * eta * k) + 3 * (eta * k)))
        with (8 * (INR n + 1) * (a * W + 3 * eta) * k) by (unfold x, K; ring). apply Rmult_le_compat_r; lra. }
    assert (P1 : 0 <= x * K) by (apply Rmult_le_pos; lra).
    assert (P2 : 4 * (u * K) <= a * K) by (rewrite <- Rmult_assoc; apply Rmult_le_compat_r; lra).
    assert (P3 : 0 <= INR n * eta * k) by (apply Rmult_le_pos; lra).
    assert (P4 : 0 <= eta * k) by (apply Rmult_le_pos; lra).
    assert (P5 : 0 <= u * K) by (apply Rmult_le_pos; lra).
    assert (P6 : 0 <= W * M) by (apply Rmult_le_pos; lra).
    assert (Hx1 : x <= 1) by nra.
    assert (HH : 0 <= H) by (unfold H; assert (0 <= u * (W * M)) by (apply Rmult_le_pos; lra); nra).
    split; [unfold e; apply Rmult_le_pos; [lra|]; assert (0 <= a * H) by (apply Rmult_le_pos; lra); lra|].
    split; [unfold f; apply Rmult_le_pos; lra|].
    split; [unfold f; nra|].
    (* delta *)
    assert (Hd : delta <= 2 * (33 / 16 * (x * K) * M + u * K * M + (3 * (INR n * eta * k) + 2 * (eta * k) + 3 * (INR n * eta * k) * M))).
    { assert (E : delta = 2 * ((1 + u) * (x * K) * M + x * (eta * k) + 3 * (INR n * eta * k) + u * K * M + eta * k + M * (x * K) + 3 * (INR n * eta * k) * M))
        by (unfold delta, e, f, H, x, K, k; field; lra).
      rewrite E. clear E. assert (Q1 : x * (eta * k) <= eta * k) by nra.
      assert (Q2 : 0 <= x * K * M) by (apply Rmult_le_pos; lra).
      assert (Q3 : u * (x * K * M) <= / 16 * (x * K * M)) by (apply Rmult_le_compat_r; lra).
      nra. }
    set (A := x * K * M) in *. set (B := u * K * M). set (C := INR n * eta * k) in *. set (D := eta * k) in *. set (E := C * M).
    assert (Hd' : delta <= 33 / 8 * A + 2 * B + 6 * C + 4 * D + 6 * E) by (unfold A, B, E in *; lra). clear Hd.
    assert (B1 : 0 <= A) by (apply Rmult_le_pos; lra). assert (B2 : 0 <= B) by (apply Rmult_le_pos; lra).
    assert (B3 : 0 <= E) by (apply Rmult_le_pos; lra).
    assert (B4 : A <= / 8 * M) by (unfold A; apply Rmult_le_compat_r; lra).
    assert (B5 : B <= / 32 * M) by (unfold B; apply Rmult_le_compat_r; lra).
    assert (B6 : E <= / 24 * M) by (unfold E; apply Rmult_le_compat_r; lra).
    assert (B7 : C + D <= / 24) by lra.
    assert (B8 : u * M <= B) by (unfold B; apply Rmult_le_compat_r; nra).
    assert (Hdm : delta <= M + 1) by lra.
    split.
    - rewrite HOm. assert (HX : 0 <= M + (M + 1)) by lra.
      assert ((1 + u) * (M + delta) <= (1 + / 16) * (M + (M + 1))).
      { apply Rle_trans with ((1 + u) * (M + (M + 1))); [apply Rmult_le_compat_l; lra|apply Rmult_le_compat_r; lra]. }
      lra.
    - assert (Hd2 : (1 + u) * delta <= (1 + / 16) * (33 / 8 * A + 2 * B + 6 * C + 4 * D + 6 * E)).
      { apply Rle_trans with ((1 + u) * (33 / 8 * A + 2 * B + 6 * C + 4 * D + 6 * E)); [apply Rmult_le_compat_l; lra|apply Rmult_le_compat_r; lra]. }
      assert (EE : W / w0 * M * (5 * INR n * a + 4 * u) + (1 + (7 * INR n * (1 + M) + 5) / w0) * eta
        = 5 * A + 4 * B + eta + 7 * C + 7 * E + 5 * D).
      { unfold A, B, E, C, D, x, K, k, Rdiv. ring. }
      rewrite EE. lra.
  Qed.

  Lemma coord_curve d (b : nat -> R) (l : list (vec num d)) n i : length l = n -> (i < d)%nat ->
    coord d i (psum n (fun j => pmul (b j) (nth j (map (vreal d) l) p0))) = rsum n (fun j => b j * B2R (coord d i (nth j l p0))).
  Proof.
    intros Hn Hi. rewrite coord_psum by exact Hi. apply rsum_ext. intros j Hj. rewrite coord_mul by exact Hi.
    rewrite (nth_indep _ p0 (vreal d p0)) by (rewrite map_length; lia). rewrite map_nth. now rewrite (vreal_coord prec emax).
  Qed.

  Definition row_bound (d : nat) (H W : R) (i : nat) : R := if (i <? d)%nat then H else W.
  Lemma rows_bounded d (pts : list (vec num d)) ws w0 W M : length ws = length pts -> sized pts M -> weighed ws w0 W ->
    0 < w0 -> 0 <= M -> W * M <= bpow radix2 (emax - 2) ->
    forall p i, In p (frows pts ws) -> (i < S d)%nat ->
      is_finite (coord (S d) i p) = true /\ Rabs (B2R (coord (S d) i p)) <= row_bound d ((1 + u) * (W * M) + eta) W i.
  Proof.
    intros Hl HS HW Hw0 HM HWM p i Hin Hi.
    pose proof (u_pos prec) as Hu.
    unfold frows in Hin. apply in_map_iff in Hin. destruct Hin as ([a w] & <- & Hin). cbn [fst snd].
    destruct (HS a (in_combine_l _ _ _ _ Hin)) as [Fa Ba]. destruct (HW w (in_combine_r _ _ _ _ Hin)) as [Fw Bw].
    unfold row_bound. destruct (Nat.ltb_spec i d) as [H|H].
    - rewrite frow_head by exact H.
      destruct (product_spec d a w i M w0 W Fa Ba Fw ltac:(lra) Bw H HM HWM) as [F E]. split; [exact F|].
      apply Rabs_le_inv in E. pose proof (Ba i H) as Hx. rewrite (vreal_coord prec emax) in Hx.
      assert (Hp : Rabs (B2R w * B2R (coord d i a)) <= W * M).
      { rewrite Rabs_mult. apply Rmult_le_compat; try apply Rabs_pos; [rewrite Rabs_pos_eq; lra|exact Hx]. }
      apply Rabs_le_inv in Hp. apply Rabs_le. lra.
    - replace i with d by lia. rewrite frow_last. split; [exact Fw|]. rewrite Rabs_pos_eq by lra. lra.
  Qed.

  Lemma rational_bezier_error d (c0 : rbezier num d) (t : num) n w0 W M :
    (4 <= prec)%Z -> length (rb_pts c0) = S n -> length (rb_weights c0) = S n -> rb_periodic c0 = false ->
    sized (rb_pts c0) M -> weighed (rb_weights c0) w0 W -> 0 < w0 -> 0 <= M <= bpow radix2 (emax - 2) ->
    W <= bpow radix2 (emax - 2) -> W * M <= bpow radix2 (emax - 2) ->
    8 * (INR n + 1) * (4 * u * W + 3 * eta) <= w0 ->
    is_finite t = true -> 0 <= B2R t <= 1 ->
    exists c q, rb_initialize c0 = Ok c /\ f_rb_evaluate prec emax c t = Ok q /\ vfinite d q /\
      forall i, (i < d)%nat ->
        Rabs (coord d i (vreal d q) - coord d i (weighted_mean (S n) (bezier_basis (S n) (B2R t)) (map B2R (rb_weights c0)) (map (vreal d) (rb_pts c0))))
        <= W / w0 * M * ((20 * INR n + 4) * u) + (1 + (7 * INR n * (1 + M) + 5) / w0) * eta.
  Proof.
    intros Hpr Hn Hnw Hper HS HW Hw0 HM HWb HWM Hsm Ft Ht.
    set (pts := rb_pts c0) in *. set (ws := rb_weights c0) in *.
    pose proof (u_pos prec) as Hu. pose proof (eta_pos prec emax) as Het. pose proof (pos_INR n) as Hi0.
    assert (HwW : w0 <= W).
    { destruct ws as [|w ws']; [discriminate|]. destruct (HW w (or_introl eq_refl)). lra. }
    destruct (rational_sizes n (4 * u) W M w0 Hpr Hw0 HwW ltac:(lra) ltac:(lra) ltac:(lra) Hsm) as (He & Hf & H2f & HO & HB).
    set (H := (1 + u) * (W * M) + eta) in *.
    assert (HWM0 : 0 <= W * M) by (apply Rmult_le_pos; lra).
    assert (HH0 : 0 <= H) by (unfold H; assert (0 <= u * (W * M)) by (apply Rmult_le_pos; lra); lra).
    assert (Hu16 : u <= / 16).
    { unfold unit_roundoff. change (/ 16) with (bpow radix2 (-4)). apply bpow_le. lia. }
    assert (Hb1 : bpow radix2 (emax - 1) = 2 * bpow radix2 (emax - 2)).
    { change 2 with (bpow radix2 1). rewrite <- bpow_plus. f_equal. lia. }
    assert (Heb : eta <= / 2 * bpow radix2 (emax - 2)).
    { unfold underflow_error. change (/ 2) with (bpow radix2 (-1)). rewrite <- bpow_plus. apply bpow_le. unfold Prec_gt_0, Prec_lt_emax in *. lia. }
    assert (HHb : H <= bpow radix2 (emax - 1)).
    { unfold H. rewrite Hb1. assert (u * (W * M) <= / 16 * bpow radix2 (emax - 2)) by (apply Rmult_le_compat; lra). lra. }
    assert (Hn24 : 24 * INR n * u <= 1).
    { assert (INR n * (u * W) <= (INR n + 1) * (u * W)) by (apply Rmult_le_compat_r; [apply Rmult_le_pos; lra|lra]).
      assert (0 <= (INR n + 1) * eta) by (apply Rmult_le_pos; lra).
      assert (A : 32 * (INR n * u) * W <= 1 * W) by nra. apply Rmult_le_reg_r in A; [|lra]. assert (0 <= INR n * u) by (apply Rmult_le_pos; lra). lra. }
    assert (Hlr : length (frows pts ws) = S n) by (rewrite frows_length; lia).
    destruct (bezier_near_i prec emax (S d) (frows pts ws) t n (row_bound d H W) Hlr) as (q & Eq & Hq).
    { exact (rows_bounded d pts ws w0 W M ltac:(lia) HS HW Hw0 ltac:(lra) HWM). }
    { exact Ft. } { exact Ht. }
    { intros i Hi. unfold row_bound. destruct (i <? d)%nat; apply (growth_finite prec emax); lra. }
    assert (Hnear : forall i, (i < S d)%nat -> is_finite (coord (S d) i q) = true /\
      Rabs (B2R (coord (S d) i q) - rsum (S n) (fun j => bezier_basis (S n) (B2R t) j * B2R (coord (S d) i (nth j (frows pts ws) p0))))
      <= INR n * (4 * u * row_bound d H W i + 3 * eta)).
    { intros i Hi. destruct (Hq i Hi) as (F & _ & E). split; [exact F|].
      unfold bernstein_curve in E. rewrite map_length, Hlr in E.
      rewrite (coord_curve (S d) (fun j => bernstein (S n - 1) j (B2R t)) (frows pts ws) (S n) i Hlr Hi) in E.
      assert (Hr0 : 0 <= row_bound d H W i) by (unfold row_bound; destruct (i <? d)%nat; lra).
      pose proof (growth_bound prec emax (row_bound d H W i) n Hr0 Hn24). unfold bezier_basis. eapply Rle_trans; [exact E|]. lra. }
    destruct (h_point_error d q (S n) (bezier_basis (S n) (B2R t)) pts ws w0 W M (INR n * (4 * u * H + 3 * eta)) (INR n * (4 * u * W + 3 * eta)) (bezier_simplex n _ Ht) Hn Hnw HS HW Hw0 ltac:(lra) HWM) as [F E].
    { apply (vfinite_coord prec emax (S d)). intros i Hi. apply Hnear. exact Hi. }
    { exact He. } { exact Hf. }
    { intros i Hi. pose proof (proj2 (Hnear i ltac:(lia))) as E. unfold row_bound in E.
      rewrite (proj2 (Nat.ltb_lt i d) Hi) in E. exact E. }
    { pose proof (proj2 (Hnear d ltac:(lia))) as E. unfold row_bound in E. rewrite Nat.ltb_irrefl in E. exact E. }
    { exact H2f. } { exact HO. }
    exists {| rb_pts := pts; rb_weights := ws; rb_hom := {| bz_pts := frows pts ws; bz_periodic := false |}; rb_periodic := false |}, (f_h_point prec emax q).
    split.
    { unfold rb_initialize, homogenize. fold pts ws. unfold zlen. rewrite Hn, Hnw, Z.eqb_refl, bind_Ok. rewrite Hper. reflexivity. }
    split.
    { unfold f_rb_evaluate, rb_validate. cbn [rb_hom rb_pts rb_weights rb_periodic bz_pts bz_periodic].
      unfold zlen. rewrite Hlr, Hn, Hnw, Z.eqb_refl. cbn [negb orb Bool.eqb]. rewrite !bind_Ok.
      unfold f_bz_evaluate. cbn [bz_periodic bz_pts]. rewrite bind_Ok.
      match goal with |- bind ?x _ = _ => replace x with (Ok q) by (symmetry; exact Eq) end. reflexivity. }
    split; [exact F|]. intros i Hi. eapply Rle_trans; [exact (E i Hi)|].
    replace ((20 * INR n + 4) * u) with (5 * INR n * (4 * u) + 4 * u) by ring. exact HB.
  Qed.

  Lemma nurbs_error d (c0 : nurbs num d) (t : num) w0 W M :
    let knots := map B2R (nb_knots c0) in
    let n := length (nb_pts c0) in
    let p := bspline_degree (nb_pts c0) knots in
    tol_ok prec emax ->
    (4 <= prec)%Z -> length (nb_weights c0) = n -> nb_periodic c0 = false ->
    valid_bspline (nb_pts c0) knots -> knots_apart (/ IZR (10 ^ 15)) knots ->
    (forall x, In x (nb_knots c0) -> is_finite x = true /\ Rabs (B2R x) <= bpow radix2 (emax - 2)) ->
    sized (nb_pts c0) M -> weighed (nb_weights c0) w0 W -> 0 < w0 -> 0 <= M <= bpow radix2 (emax - 2) ->
    W <= bpow radix2 (emax - 2) -> W * M <= bpow radix2 (emax - 2) ->
    8 * (INR p + 1) * ((14 * u + 2 * eta) * W + 3 * eta) <= w0 ->
    is_finite t = true -> lower_of (nb_pts c0) knots <= B2R t <= upper_of (nb_pts c0) knots ->
    (nth p knots 0 < nth (p + 1) knots 0 \/ lower_of (nb_pts c0) knots < B2R t) ->
    exists c q, nb_initialize c0 = Ok c /\ f_nb_evaluate prec emax c t = Ok q /\ vfinite d q /\
      forall i, (i < d)%nat ->
        Rabs (coord d i (vreal d q) - coord d i (weighted_mean n (bspline_basis n knots (B2R t)) (map B2R (nb_weights c0)) (map (vreal d) (nb_pts c0))))
        <= W / w0 * M * ((70 * INR p + 4) * u + 10 * INR p * eta) + (1 + (7 * INR p * (1 + M) + 5) / w0) * eta.
  Proof.
    intros knots n p Htol Hpr Hnw Hper HV HA HK HS HW Hw0 HM HWb HWM Hsm Ft Ht Hspan.
    set (pts := nb_pts c0) in *. set (ws := nb_weights c0) in *.
    pose proof (u_pos prec) as Hu. pose proof (eta_pos prec emax) as Het. pose proof (pos_INR p) as Hi0.
    pose proof (vb_pts _ _ HV) as Hpn. fold p in Hpn. fold n in Hpn.
    assert (HwW : w0 <= W).
    { destruct ws as [|w ws']; [simpl in Hnw; lia|]. destruct (HW w (or_introl eq_refl)). lra. }
    set (a := 14 * u + 2 * eta) in *.
    destruct (rational_sizes p a W M w0 Hpr Hw0 HwW ltac:(lra) ltac:(lra) ltac:(unfold a; lra) Hsm) as (He & Hf & H2f & HO & HB).
    set (H := (1 + u) * (W * M) + eta) in *.
    assert (HWM0 : 0 <= W * M) by (apply Rmult_le_pos; lra).
    assert (HH0 : 0 <= H) by (unfold H; assert (0 <= u * (W * M)) by (apply Rmult_le_pos; lra); lra).
    assert (Hu16 : u <= / 16).
    { unfold unit_roundoff. change (/ 16) with (bpow radix2 (-4)). apply bpow_le. lia. }
    assert (Hb1 : bpow radix2 (emax - 1) = 2 * bpow radix2 (emax - 2)).
    { change 2 with (bpow radix2 1). rewrite <- bpow_plus. f_equal. lia. }
    assert (Heb : eta <= / 2 * bpow radix2 (emax - 2)).
    { unfold underflow_error. change (/ 2) with (bpow radix2 (-1)). rewrite <- bpow_plus. apply bpow_le. unfold Prec_gt_0, Prec_lt_emax in *. lia. }
    assert (HHb : H <= bpow radix2 (emax - 1)).
    { unfold H. rewrite Hb1. assert (u * (W * M) <= / 16 * bpow radix2 (emax - 2)) by (apply Rmult_le_compat; lra). lra. }
    assert (Hn24 : 24 * INR p * u <= 1).
    { assert (B1 : 0 <= (INR p + 1) * eta) by (apply Rmult_le_pos; lra).
      assert (B2 : (INR p * (14 * u)) * W <= ((INR p + 1) * a) * W).
      { apply Rmult_le_compat_r; [lra|]. apply Rmult_le_compat; unfold a; lra. }
      assert (A : 112 * (INR p * u) * W <= 1 * W) by nra. apply Rmult_le_reg_r in A; [|lra]. assert (0 <= INR p * u) by (apply Rmult_le_pos; lra). lra. }
    assert (Hlr : length (frows pts ws) = n) by (rewrite frows_length; unfold n; lia).
    pose (hc := mk_bspline (frows pts ws) (nb_knots c0)).
    assert (Hdeg : bspline_degree (bs_pts hc) knots = p) by (unfold bspline_degree, hc; cbn [bs_pts mk_bspline]; rewrite Hlr; reflexivity).
    assert (HVh : valid_bspline (bs_pts hc) knots).
    { destruct HV as [V1 V2 V3 V4]. constructor.
      - unfold hc. cbn [bs_pts mk_bspline]. rewrite Hlr. exact V1.
      - rewrite Hdeg. unfold hc. cbn [bs_pts mk_bspline]. rewrite Hlr. exact V2.
      - exact V3.
      - rewrite Hdeg. unfold hc. cbn [bs_pts mk_bspline]. rewrite Hlr. exact V4. }
    assert (Hlow : lower_of (bs_pts hc) knots = lower_of pts knots) by (unfold lower_of; now rewrite Hdeg).
    assert (Hupp : upper_of (bs_pts hc) knots = upper_of pts knots).
    { unfold upper_of, hc. cbn [bs_pts mk_bspline]. now rewrite Hlr. }
    destruct (bspline_near_i prec emax (S d) hc t (row_bound d H W) Htol) as (q & Eq & Hq).
    { exact HVh. } { exact HA. } { reflexivity. } { exact HK. }
    { exact (rows_bounded d pts ws w0 W M ltac:(unfold n in *; lia) HS HW Hw0 ltac:(lra) HWM). }
    { exact Ft. }
    { change (map B2R (bs_knots hc)) with knots. rewrite Hlow, Hupp. exact Ht. }
    { change (map B2R (bs_knots hc)) with knots. rewrite Hlow, Hdeg. exact Hspan. }
    { change (map B2R (bs_knots hc)) with knots. rewrite Hdeg. intros i Hi. unfold row_bound. destruct (i <? d)%nat; apply (growth_finite prec emax); lra. }
    change (map B2R (bs_knots hc)) with knots in Hq. rewrite Hdeg in Hq.
    assert (Hnear : forall i, (i < S d)%nat -> is_finite (coord (S d) i q) = true /\
      Rabs (B2R (coord (S d) i q) - rsum n (fun j => bspline_basis n knots (B2R t) j * B2R (coord (S d) i (nth j (frows pts ws) p0))))
      <= INR p * (a * row_bound d H W i + 3 * eta)).
    { intros i Hi. destruct (Hq i Hi) as (F & _ & E). split; [exact F|].
      unfold bspline_curve in E. rewrite map_length in E. change (bs_pts hc) with (frows pts ws) in E. rewrite Hlr in E.
      assert (Hdm : bspline_degree (map (vreal (S d)) (frows pts ws)) knots = (length knots - n - 1)%nat).
      { unfold bspline_degree. rewrite map_length, Hlr. reflexivity. }
      rewrite Hdm in E.
      rewrite (coord_curve (S d) (fun j => cox (knot_of knots) (knot_of knots (Z.of_nat n)) (length knots - n - 1) (Z.of_nat j) (B2R t)) (frows pts ws) n i Hlr Hi) in E.
      assert (Hr0 : 0 <= row_bound d H W i) by (unfold row_bound; destruct (i <? d)%nat; lra).
      pose proof (growth_bound prec emax (row_bound d H W i) p Hr0 Hn24). unfold bspline_basis. eapply Rle_trans; [exact E|]. unfold a. lra. }
    destruct (h_point_error d q n (bspline_basis n knots (B2R t)) pts ws w0 W M (INR p * (a * H + 3 * eta)) (INR p * (a * W + 3 * eta))
      (knots_simplex pts knots (B2R t) HV Hspan Ht) eq_refl Hnw HS HW Hw0 ltac:(lra) HWM) as [F E].
    { apply (vfinite_coord prec emax (S d)). intros i Hi. apply Hnear. exact Hi. }
    { exact He. } { exact Hf. }
    { intros i Hi. pose proof (proj2 (Hnear i ltac:(lia))) as E. unfold row_bound in E.
      rewrite (proj2 (Nat.ltb_lt i d) Hi) in E. exact E. }
    { pose proof (proj2 (Hnear d ltac:(lia))) as E. unfold row_bound in E. rewrite Nat.ltb_irrefl in E. exact E. }
    { exact H2f. } { exact HO. }
    exists {| nb_pts := pts; nb_knots := nb_knots c0; nb_weights := ws; nb_hom := {| bs_pts := frows pts ws; bs_knots := nb_knots c0; bs_periodic := false |}; nb_periodic := false |}, (f_h_point prec emax q).
    split.
    { unfold nb_initialize, homogenize. fold pts ws. unfold zlen. rewrite Hnw. fold n. rewrite Z.eqb_refl, bind_Ok. rewrite Hper. reflexivity. }
    split.
    { unfold f_nb_evaluate, nb_validate, bs_validate, nb_base, bs_degree.
      cbn [nb_hom nb_pts nb_knots nb_weights nb_periodic bs_pts bs_knots bs_periodic].
      unfold zlen. rewrite Hlr, Hnw. fold n. rewrite Z.eqb_refl. cbn [negb orb Bool.eqb].
      pose proof (vb_len _ _ HV) as Hlk. unfold knots in Hlk. rewrite map_length in Hlk. fold n in Hlk.
      destruct (Z.ltb_spec (Z.of_nat (length (nb_knots c0)) - Z.of_nat n - 1) 0) as [Hneg|_]; [lia|]. rewrite !bind_Ok.
      unfold f_bs_evaluate. cbn [bs_periodic bs_pts bs_knots]. rewrite bind_Ok.
      match goal with |- bind ?x _ = _ => replace x with (Ok q) by (symmetry; exact Eq) end. reflexivity. }
    split; [exact F|]. intros i Hi. eapply Rle_trans; [exact (E i Hi)|].
    replace ((70 * INR p + 4) * u + 10 * INR p * eta) with (5 * INR p * a + 4 * u) by (unfold a; ring). exact HB.
  Qed.
End Float.
