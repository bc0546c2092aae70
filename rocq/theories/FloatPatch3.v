(** Rational Bezier patches in floating point arithmetic. *)
From Coq Require Import Reals Lra Lia ZArith QArith List Bool.
From Flocq Require Import Core IEEE754.BinarySingleNaN.
From Verif Require Import Monad MonadFacts Scalar ScalarFacts Spec SpecFacts SpecPatch SpecPatchRational TensorFacts PatchFacts ModelCurve
  ModelBezier BezierThms ModelBSpline BSplineFacts BSplineThms BSplineThms2 ModelRational ModelPatchBase ModelPatch ModelPatchRational
  PatchHull SpecFloat ModelFloat ModelFloatWrap ModelFloatRational ModelFloatPatch FloatFacts FloatThms FloatThms2 FloatThms3
  FloatCases FloatRuns FloatDeriv FloatTotal FloatSplit FloatPatch FloatRational FloatRational2.
Import ListNotations.
Local Open Scope R_scope.

(** ** Grids as lists *)
Definition flat_basis (m : nat) (bu bv : nat -> R) (k : nat) : R := bu (k / m)%nat * bv (k mod m)%nat.

Lemma flat_simplex n m bu bv : (0 < m)%nat -> simplex n bu -> simplex m bv -> simplex (n * m) (flat_basis m bu bv).
Proof.
  intros Hm [U0 U1] [V0 V1]. split.
  - intros k Hk. unfold flat_basis. apply Rmult_le_pos; [apply U0|apply V0].
    + apply Nat.div_lt_upper_bound; nia.
    + apply Nat.mod_upper_bound. lia.
  - rewrite rsum_flat, <- U1. apply rsum_ext. intros i Hi. transitivity (bu i * rsum m bv); [|rewrite V1; ring].
    rewrite <- rsum_scal. apply rsum_ext. intros j Hj. unfold flat_basis. now destruct (cell_div m i j Hj) as [-> ->].
Qed.
Lemma flat_tensor_sum {d} n m bu bv (g : list (vec R d)) :
  tensor_sum n m bu bv g = psum (n * m) (fun k => pmul (flat_basis m bu bv k) (nth k g p0)).
Proof.
  rewrite psum_flat. unfold tensor_sum. apply psum_ext. intros i Hi. apply psum_ext. intros j Hj. unfold flat_basis.
  now destruct (cell_div m i j Hj) as [-> ->].
Qed.
Lemma flat_mean {d} n m bu bv ws (g : list (vec R d)) :
  weighted_mean (n * m) (flat_basis m bu bv) ws g = tensor_mean n m bu bv ws g.
Proof.
  unfold weighted_mean, tensor_mean. f_equal.
  - f_equal. unfold weight_sum, tensor_weight. rewrite rsum_flat. apply rsum_ext. intros i Hi. apply rsum_ext. intros j Hj.
    unfold flat_basis. now destruct (cell_div m i j Hj) as [-> ->].
  - rewrite psum_flat. apply psum_ext. intros i Hi. apply psum_ext. intros j Hj. unfold flat_basis.
    now destruct (cell_div m i j Hj) as [-> ->].
Qed.

Section Float.
  Context (prec emax : Z) {Hprec : Prec_gt_0 prec} {Hmax : Prec_lt_emax prec emax}.
  Notation num := (binary_float prec emax).
  Notation u := (unit_roundoff prec).
  Notation eta := (underflow_error prec emax).
  Notation Omega := (bpow radix2 emax).
  Local Instance FOs : ScalarOps num := ieee_ops prec emax.

  (** [two_stage] of FloatPatch.v with a bound for each coordinate. *)
  Lemma two_stage_i d (rows : list (list (vec num d))) (x y : num) n m (Mf : nat -> R) :
    length rows = S n -> (forall r, In r rows -> length r = S m) ->
    (forall r p i, In r rows -> In p r -> (i < d)%nat -> is_finite (coord d i p) = true /\ Rabs (B2R (coord d i p)) <= Mf i) ->
    is_finite x = true -> 0 <= B2R x <= 1 -> is_finite y = true -> 0 <= B2R y <= 1 ->
    (forall i, (i < d)%nat -> 0 <= Mf i /\ growth u eta (Mf i) (m + n) < Omega) ->
    exists qs q, length qs = S n /\
      (forall k, (k <= n)%nat -> bz_evaluate (mk_bezier (nth k rows [])) y = Ok (nth k qs p0)) /\
      bz_evaluate (mk_bezier qs) x = Ok q /\
      forall i, (i < d)%nat -> is_finite (coord d i q) = true /\
        Rabs (B2R (coord d i q) -
          coord d i (bernstein_curve (map (fun r => bernstein_curve (map (vreal d) r) (B2R y)) rows) (B2R x)))
        <= growth u eta (Mf i) (m + n) - Mf i.
  Proof.
    intros Hn Hm Hb Fx Hx Fy Hy HO.
    assert (HO1 : forall i, (i < d)%nat -> growth u eta (Mf i) m < Omega).
    { intros i Hi. destruct (HO i Hi) as [HM HO']. eapply Rle_lt_trans; [|exact HO']. apply growth_mono; [exact HM|lia]. }
    assert (ST : exists qs, length qs = length rows /\ forall k, (k < length rows)%nat ->
      bz_evaluate (mk_bezier (nth k rows [])) y = Ok (nth k qs p0) /\
      forall i, (i < d)%nat -> near prec emax (growth u eta (Mf i) m) (growth u eta (Mf i) m - Mf i) (coord d i (nth k qs p0))
          (coord d i (bernstein_curve (map (vreal d) (nth k rows [])) (B2R y)))).
    { clear Hn. induction rows as [|r rows IH]; [exists []; split; [reflexivity|intros k Hk; simpl in Hk; lia]|].
      destruct IH as (qs & Lq & Hq).
      - intros r' Hr. apply Hm. now right.
      - intros r' p i Hr. apply (Hb r' p i). now right.
      - destruct (bezier_near_i prec emax d r y m Mf (Hm r (or_introl eq_refl))) as (q & Eq & Nq).
        + intros p i Hp Hi. apply (Hb r p i (or_introl eq_refl) Hp Hi).
        + exact Fy.
        + exact Hy.
        + exact HO1.
        + exists (q :: qs). split; [simpl; now rewrite Lq|]. intros [|k] Hk; [split; [exact Eq|exact Nq]|]. apply Hq. simpl in Hk. lia. }
    destruct ST as (qs & Lq & Hq). rewrite Hn in *.
    destruct (bezier_near_i prec emax d qs x n (fun i => growth u eta (Mf i) m) Lq) as (q & Eq & Nq).
    - intros p i Hp Hi. apply (In_nth _ _ p0) in Hp. destruct Hp as (k & Hk & <-).
      destruct (Hq k ltac:(lia)) as [_ N]. destruct (N i Hi) as (N1 & N2 & _). now split.
    - exact Fx.
    - exact Hx.
    - intros i Hi. destruct (HO i Hi) as [HM HO']. pose proof (growth_plus prec emax (Mf i) m n HM). lra.
    - exists qs, q. split; [exact Lq|]. split; [intros k Hk; apply Hq; lia|]. split; [exact Eq|].
      intros i Hi. destruct (HO i Hi) as [HM HO']. pose proof (growth_plus prec emax (Mf i) m n HM) as GP.
      pose proof (growth_ge prec emax (Mf i) m HM) as GM. destruct (Nq i Hi) as (N1 & _ & N3). split; [exact N1|].
      pose proof (bernstein_near d (map (vreal d) qs) (map (fun r => bernstein_curve (map (vreal d) r) (B2R y)) rows) n i
        (growth u eta (Mf i) m - Mf i) (B2R x)) as BN.
      rewrite !map_length in BN. specialize (BN Lq Hn Hi Hx).
      assert (HN : forall k, (k <= n)%nat -> Rabs (coord d i (nth k (map (vreal d) qs) p0) -
          coord d i (nth k (map (fun r => bernstein_curve (map (vreal d) r) (B2R y)) rows) p0)) <= growth u eta (Mf i) m - Mf i).
      { intros k Hk. destruct (Hq k ltac:(lia)) as [_ N]. destruct (N i Hi) as (_ & _ & N4).
        rewrite (nth_indep (map (vreal d) qs) p0 (vreal d p0)) by (rewrite map_length; lia).
        rewrite map_nth.
        rewrite (nth_indep (map _ rows) p0 (bernstein_curve (map (@vreal prec emax d) []) (B2R y))) by (rewrite map_length; lia).
        rewrite (map_nth (fun r => bernstein_curve (map (@vreal prec emax d) r) (B2R y)) rows []).
        rewrite (vreal_coord prec emax). exact N4. }
      specialize (BN HN).
      set (A := B2R (coord d i q)) in *. set (B := coord d i (bernstein_curve (map (vreal d) qs) (B2R x))) in *.
      set (C := coord d i (bernstein_curve (map _ rows) (B2R x))) in *.
      replace (A - C) with ((A - B) + (B - C)) by ring. eapply Rle_trans; [apply Rabs_triang|]. lra.
  Qed.

  Lemma bezier_patch_error_i d (s : bpatch (vec num d)) (x y : num) (Mf : nat -> R) :
    bp_initialize s = Ok s ->
    (bp_tu s = -1 \/ bp_tu s = bp_degu s)%Z -> (bp_tv s = -1 \/ bp_tv s = bp_degv s)%Z ->
    bp_peru s = false -> bp_perv s = false ->
    let n := Z.to_nat (bp_degu s) in
    let m := Z.to_nat (bp_degv s) in
    (forall i, (i < d)%nat -> 0 <= Mf i <= bpow radix2 (emax - 1)) -> 24 * INR (n + m) * u <= 1 ->
    (forall p i, In p (bp_grid s) -> (i < d)%nat -> is_finite (coord d i p) = true /\ Rabs (B2R (coord d i p)) <= Mf i) ->
    is_finite x = true -> 0 <= B2R x <= 1 -> is_finite y = true -> 0 <= B2R y <= 1 ->
    exists q, bp_evaluate s x y = Ok q /\ vfinite d q /\
      forall i, (i < d)%nat ->
        Rabs (coord d i (vreal d q) -
          coord d i (tensor_sum (S n) (S m) (bezier_basis (S n) (B2R x)) (bezier_basis (S m) (B2R y)) (map (vreal d) (bp_grid s))))
        <= INR (n + m) * (4 * u * Mf i + 3 * eta).
  Proof.
    intros HI Htu Htv Hpu Hpv n m HM Hu Hp Fx Hx Fy Hy.
    pose proof (grep_of_initialize s HI Htu Htv Hpu Hpv) as H. fold n in H. fold m in H.
    assert (Hg : length (bp_grid s) = (S n * S m)%nat) by (pose proof (gr_g _ _ _ H) as X; unfold zlen in X; nia).
    assert (Hb : forall k i, (k < length (bp_grid s))%nat -> (i < d)%nat ->
      is_finite (coord d i (nth k (bp_grid s) p0)) = true /\ Rabs (B2R (coord d i (nth k (bp_grid s) p0))) <= Mf i).
    { intros k i Hk Hi. exact (Hp (nth k (bp_grid s) p0) i (nth_In _ _ Hk) Hi). }
    assert (HO : forall i, (i < d)%nat -> 0 <= Mf i /\ growth u eta (Mf i) (n + m) < Omega).
    { intros i Hi. pose proof (HM i Hi). split; [lra|]. apply (growth_finite prec emax (Mf i) (n + m)); lra. }
    assert (GB : forall i, (i < d)%nat -> growth u eta (Mf i) (n + m) - Mf i <= INR (n + m) * (4 * u * Mf i + 3 * eta)).
    { intros i Hi. pose proof (HM i Hi). pose proof (growth_bound prec emax (Mf i) (n + m) ltac:(lra) Hu). lra. }
    assert (HC : forall a b : vec num d, padd a b = padd b a) by exact (padd_comm_num prec emax d).
    destruct (Z.lt_ge_cases (bp_degu s) (bp_degv s)) as [Hd|Hd].
    - destruct (two_stage_i d (map (gcol s n m) (seq 0 (S m))) y x m n Mf) as (qs & q & Lq & Eqs & Eq & Hq); try assumption; try lra.
      + now rewrite map_length, seq_length.
      + intros r Hr. apply in_map_iff in Hr. destruct Hr as (j & <- & _). unfold gcol. now rewrite map_length, seq_length.
      + intros r p i Hr Hpr Hi. apply in_map_iff in Hr. destruct Hr as (j & <- & Hj). unfold gcol in Hpr.
        apply in_map_iff in Hpr. destruct Hpr as (k & <- & Hk). apply in_seq in Hj, Hk. apply Hb; [rewrite Hg; nia|exact Hi].
      + exists q. split.
        { rewrite (g_evaluate_cols s n m H HC x y qs Lq); [exact Eq| |exact Hd]. intros j Hj.
          rewrite <- Eqs by exact Hj. f_equal. f_equal.
          rewrite (nth_indep _ [] (gcol s n m 0%nat)) by (rewrite map_length, seq_length; lia). now rewrite map_nth, seq_nth by lia. }
        split; [apply (vfinite_coord prec emax d); intros i Hi; apply (Hq i Hi)|].
        intros i Hi. destruct (Hq i Hi) as [_ E]. rewrite (vreal_coord prec emax).
        pose proof (bernstein_cols prec emax d (bp_grid s) n m (B2R x) (B2R y) Hg) as BC. rewrite <- BC. eapply Rle_trans; [exact E|]. exact (GB i Hi).
    - destruct (two_stage_i d (map (grow s m) (seq 0 (S n))) x y n m Mf) as (qs & q & Lq & Eqs & Eq & Hq); try assumption; try lra.
      + now rewrite map_length, seq_length.
      + intros r Hr. apply in_map_iff in Hr. destruct Hr as (j & <- & _). unfold grow. now rewrite map_length, seq_length.
      + intros r p i Hr Hpr Hi. apply in_map_iff in Hr. destruct Hr as (j & <- & Hj). unfold grow in Hpr.
        apply in_map_iff in Hpr. destruct Hpr as (k & <- & Hk). apply in_seq in Hj, Hk. apply Hb; [rewrite Hg; nia|exact Hi].
      + intros i Hi. rewrite Nat.add_comm. exact (HO i Hi).
      + exists q. split.
        { rewrite (g_evaluate_rows s n m H HC x y qs Lq); [exact Eq| |exact Hd]. intros j Hj.
          rewrite <- Eqs by exact Hj. f_equal. f_equal.
          rewrite (nth_indep _ [] (grow s m 0%nat)) by (rewrite map_length, seq_length; lia). now rewrite map_nth, seq_nth by lia. }
        split; [apply (vfinite_coord prec emax d); intros i Hi; apply (Hq i Hi)|].
        intros i Hi. destruct (Hq i Hi) as [_ E]. rewrite (vreal_coord prec emax).
        pose proof (bernstein_rows prec emax d (bp_grid s) n m (B2R x) (B2R y) Hg) as BC. rewrite <- BC.
        rewrite (Nat.add_comm m n) in E. eapply Rle_trans; [exact E|]. exact (GB i Hi).
  Qed.

  Lemma rational_patch_error d (s0 : rbpatch num d) (x y : num) w0 W M :
    (4 <= prec)%Z ->
    (0 <= rp_degu s0)%Z -> (0 <= rp_degv s0)%Z ->
    bp_tu (rp_hom s0) = rp_tu s0 -> bp_tv (rp_hom s0) = rp_tv s0 ->
    (rp_tu s0 = -1 \/ rp_tu s0 = rp_degu s0)%Z -> (rp_tv s0 = -1 \/ rp_tv s0 = rp_degv s0)%Z ->
    rp_peru s0 = false -> rp_perv s0 = false ->
    let n := Z.to_nat (rp_degu s0) in
    let m := Z.to_nat (rp_degv s0) in
    length (rp_grid s0) = (S n * S m)%nat -> length (rp_weights s0) = (S n * S m)%nat ->
    sized prec emax (rp_grid s0) M -> weighed prec emax (rp_weights s0) w0 W -> 0 < w0 -> 0 <= M <= bpow radix2 (emax - 2) ->
    W <= bpow radix2 (emax - 2) -> W * M <= bpow radix2 (emax - 2) ->
    8 * (INR (n + m) + 1) * (4 * u * W + 3 * eta) <= w0 ->
    is_finite x = true -> 0 <= B2R x <= 1 -> is_finite y = true -> 0 <= B2R y <= 1 ->
    exists s q, rp_initialize s0 = Ok s /\ f_rp_evaluate prec emax s x y = Ok q /\ vfinite d q /\
      forall i, (i < d)%nat ->
        Rabs (coord d i (vreal d q) -
          coord d i (tensor_mean (S n) (S m) (bezier_basis (S n) (B2R x)) (bezier_basis (S m) (B2R y))
            (map B2R (rp_weights s0)) (map (vreal d) (rp_grid s0))))
        <= W / w0 * M * ((20 * INR (n + m) + 4) * u) + (1 + (7 * INR (n + m) * (1 + M) + 5) / w0) * eta.
  Proof.
    intros Hpr Hdu Hdv Hhu Hhv Htu Htv Hpu Hpv n m Hn Hnw HS HW Hw0 HM HWb HWM Hsm Fx Hx Fy Hy.
    set (pts := rp_grid s0) in *. set (ws := rp_weights s0) in *.
    pose proof (u_pos prec) as Hu. pose proof (eta_pos prec emax) as Het. pose proof (pos_INR (n + m)) as Hi0.
    assert (HwW : w0 <= W).
    { destruct ws as [|w ws']; [discriminate|]. destruct (HW w (or_introl eq_refl)). lra. }
    destruct (rational_sizes prec emax (n + m) (4 * u) W M w0 Hpr Hw0 HwW ltac:(lra) ltac:(lra) ltac:(lra) Hsm) as (He & Hf & H2f & HO & HB).
    set (H := (1 + u) * (W * M) + eta) in *.
    assert (HWM0 : 0 <= W * M) by (apply Rmult_le_pos; lra).
    assert (HH0 : 0 <= H) by (unfold H; assert (0 <= u * (W * M)) by (apply Rmult_le_pos; lra); lra).
    assert (Hu16 : u <= / 16).
    { unfold unit_roundoff. change (/ 16) with (bpow radix2 (-4)). apply bpow_le. lia. }
    assert (Hb1 : bpow radix2 (emax - 1) = 2 * bpow radix2 (emax - 2)).
    { change 2 with (bpow radix2 1). rewrite <- bpow_plus. f_equal. lia. }
    assert (Heb : eta <= / 2 * bpow radix2 (emax - 2)).
    { unfold underflow_error. change (/ 2) with (bpow radix2 (-1)). rewrite <- bpow_plus. apply bpow_le. unfold Prec_gt_0, Prec_lt_emax in *. lia. }
    assert (HHb : H <= bpow radix2 (emax - 1)).
    { unfold H. rewrite Hb1. assert (u * (W * M) <= / 16 * bpow radix2 (emax - 2)) by (apply Rmult_le_compat; lra). lra. }
    assert (Hn24 : 24 * INR (n + m) * u <= 1).
    { assert (INR (n + m) * (u * W) <= (INR (n + m) + 1) * (u * W)) by (apply Rmult_le_compat_r; [apply Rmult_le_pos; lra|lra]).
      assert (0 <= (INR (n + m) + 1) * eta) by (apply Rmult_le_pos; lra).
      assert (A : 32 * (INR (n + m) * u) * W <= 1 * W) by nra. apply Rmult_le_reg_r in A; [|lra]. assert (0 <= INR (n + m) * u) by (apply Rmult_le_pos; lra). lra. }
    assert (Hlr : length (frows prec emax pts ws) = (S n * S m)%nat) by (rewrite frows_length; lia).
    set (h := {| bp_tu := rp_tu s0; bp_tv := rp_tv s0; bp_degu := rp_degu s0; bp_degv := rp_degv s0; bp_grid := frows prec emax pts ws;
                 bp_peru := false; bp_perv := false |}).
    assert (HI : bp_initialize h = Ok h).
    { unfold bp_initialize, checked_degree, h. cbn [bp_degu bp_degv bp_grid].
      rewrite (proj2 (Z.leb_le _ _) Hdu), (proj2 (Z.leb_le _ _) Hdv). cbn [assert_ bind].
      rewrite (proj2 (Z.ltb_ge _ _) Hdu), (proj2 (Z.ltb_ge _ _) Hdv). cbn [orb].
      replace (zlen (frows prec emax pts ws) =? (rp_degu s0 + 1) * (rp_degv s0 + 1))%Z with true; [reflexivity|].
      symmetry. apply Z.eqb_eq. unfold zlen. rewrite Hlr. unfold n, m. nia. }
    destruct (bezier_patch_error_i (S d) h x y (row_bound d H W) HI Htu Htv eq_refl eq_refl) as (q & Eq & Fq & Hq).
    { intros i Hi. unfold row_bound. destruct (i <? d)%nat; lra. }
    { exact Hn24. }
    { exact (rows_bounded prec emax d pts ws w0 W M ltac:(lia) HS HW Hw0 ltac:(lra) HWM). }
    { exact Fx. } { exact Hx. } { exact Fy. } { exact Hy. }
    cbn [bp_degu bp_degv bp_grid h] in Hq. fold n m in Hq.
    set (b := flat_basis (S m) (bezier_basis (S n) (B2R x)) (bezier_basis (S m) (B2R y))) in *.
    assert (Hnear : forall i, (i < S d)%nat ->
      Rabs (B2R (coord (S d) i q) - rsum (S n * S m) (fun j => b j * B2R (coord (S d) i (nth j (frows prec emax pts ws) p0))))
      <= INR (n + m) * (4 * u * row_bound d H W i + 3 * eta)).
    { intros i Hi. pose proof (Hq i Hi) as E. rewrite (vreal_coord prec emax) in E. rewrite flat_tensor_sum in E. fold b in E.
      rewrite (coord_curve prec emax (S d) b (frows prec emax pts ws) (S n * S m) i Hlr Hi) in E. exact E. }
    destruct (h_point_error prec emax d q (S n * S m) b pts ws w0 W M (INR (n + m) * (4 * u * H + 3 * eta)) (INR (n + m) * (4 * u * W + 3 * eta))
      (flat_simplex (S n) (S m) _ _ ltac:(lia) (bezier_simplex n _ Hx) (bezier_simplex m _ Hy)) Hn Hnw HS HW Hw0 ltac:(lra) HWM) as [F E].
    { exact Fq. } { exact He. } { exact Hf. }
    { intros i Hi. pose proof (Hnear i ltac:(lia)) as E. unfold row_bound in E.
      rewrite (proj2 (Nat.ltb_lt i d) Hi) in E. exact E. }
    { pose proof (Hnear d ltac:(lia)) as E. unfold row_bound in E. rewrite Nat.ltb_irrefl in E. exact E. }
    { exact H2f. } { exact HO. }
    exists (rp_set_hom s0 h), (f_h_point prec emax q). split.
    { unfold rp_initialize, homogenize. fold pts ws. unfold zlen at 1 2. rewrite Hn, Hnw, Z.eqb_refl, bind_Ok. unfold checked_degree at 1 2.
      rewrite (proj2 (Z.leb_le _ _) Hdu), (proj2 (Z.leb_le _ _) Hdv). cbn [assert_]. rewrite !bind_Ok.
      unfold bp_set_periodic, bp_set_degrees, bp_set_grid. cbn [bp_tu bp_tv bp_degu bp_degv bp_grid bp_peru bp_perv].
      rewrite Hhu, Hhv, Hpu, Hpv. fold (frow prec emax (d := d)).
      match goal with |- bind ?z _ = _ => replace z with (Ok h) by (symmetry; exact HI) end. reflexivity. }
    split.
    { unfold f_rp_evaluate, rp_validate, rp_set_hom. cbn [rp_hom rp_grid rp_weights rp_peru rp_perv rp_degu rp_degv bp_grid bp_peru bp_perv h].
      fold pts ws. unfold zlen. rewrite Hlr, Hn, Hnw, Z.eqb_refl. cbn [negb orb]. unfold checked_degree.
      rewrite (proj2 (Z.leb_le _ _) Hdu), (proj2 (Z.leb_le _ _) Hdv). cbn [assert_ bind].
      rewrite (proj2 (Z.ltb_ge _ _) Hdu), (proj2 (Z.ltb_ge _ _) Hdv), Hpu, Hpv. cbn [orb Bool.eqb negb]. rewrite bind_Ok.
      match goal with |- bind ?z _ = _ => replace z with (Ok q) by (symmetry; exact Eq) end. reflexivity. }
    split; [exact F|]. intros i Hi. rewrite <- flat_mean. fold b. eapply Rle_trans; [exact (E i Hi)|].
    replace ((20 * INR (n + m) + 4) * u) with (5 * INR (n + m) * (4 * u) + 4 * u) by ring. exact HB.
  Qed.
End Float.

Lemma rational_patch_double : forall (d : nat) (s0 : rbpatch double d) (x y : double) (w0 W M : R),
  (0 <= rp_degu s0)%Z -> (0 <= rp_degv s0)%Z ->
  bp_tu (rp_hom s0) = rp_tu s0 -> bp_tv (rp_hom s0) = rp_tv s0 ->
  (rp_tu s0 = -1 \/ rp_tu s0 = rp_degu s0)%Z -> (rp_tv s0 = -1 \/ rp_tv s0 = rp_degv s0)%Z ->
  rp_peru s0 = false -> rp_perv s0 = false ->
  let n := Z.to_nat (rp_degu s0) in
  let m := Z.to_nat (rp_degv s0) in
  length (rp_grid s0) = (S n * S m)%nat -> length (rp_weights s0) = (S n * S m)%nat ->
  (forall a, In a (rp_grid s0) -> vfinite d a /\ forall i, (i < d)%nat -> Rabs (coord d i (vreal d a)) <= M) ->
  (forall w, In w (rp_weights s0) -> is_finite w = true /\ w0 <= B2R w <= W) ->
  0 < w0 -> 0 <= M <= bpow radix2 1022 -> W <= bpow radix2 1022 -> W * M <= bpow radix2 1022 ->
  8 * (INR (n + m) + 1) * (4 * unit_roundoff 53 * W + 3 * underflow_error 53 1024) <= w0 ->
  is_finite x = true -> 0 <= B2R x <= 1 -> is_finite y = true -> 0 <= B2R y <= 1 ->
  exists (s : rbpatch double d) (q : vec double d),
    @rp_initialize double double_ops d s0 = Ok s /\ @f_rp_evaluate 53 1024 prec64 max64 d s x y = Ok q /\ vfinite d q /\
    forall i, (i < d)%nat ->
      Rabs (coord d i (vreal d q) -
        coord d i (tensor_mean (S n) (S m) (bezier_basis (S n) (B2R x)) (bezier_basis (S m) (B2R y))
          (map B2R (rp_weights s0)) (map (vreal d) (rp_grid s0))))
      <= W / w0 * M * ((20 * INR (n + m) + 4) * unit_roundoff 53)
         + (1 + (7 * INR (n + m) * (1 + M) + 5) / w0) * underflow_error 53 1024.
Proof. intros d s0 x y w0 W M. exact (@rational_patch_error 53 1024 prec64 max64 d s0 x y w0 W M ltac:(lia)). Qed.

Lemma rational_patch_float : forall (d : nat) (s0 : rbpatch float32 d) (x y : float32) (w0 W M : R),
  (0 <= rp_degu s0)%Z -> (0 <= rp_degv s0)%Z ->
  bp_tu (rp_hom s0) = rp_tu s0 -> bp_tv (rp_hom s0) = rp_tv s0 ->
  (rp_tu s0 = -1 \/ rp_tu s0 = rp_degu s0)%Z -> (rp_tv s0 = -1 \/ rp_tv s0 = rp_degv s0)%Z ->
  rp_peru s0 = false -> rp_perv s0 = false ->
  let n := Z.to_nat (rp_degu s0) in
  let m := Z.to_nat (rp_degv s0) in
  length (rp_grid s0) = (S n * S m)%nat -> length (rp_weights s0) = (S n * S m)%nat ->
  (forall a, In a (rp_grid s0) -> vfinite d a /\ forall i, (i < d)%nat -> Rabs (coord d i (vreal d a)) <= M) ->
  (forall w, In w (rp_weights s0) -> is_finite w = true /\ w0 <= B2R w <= W) ->
  0 < w0 -> 0 <= M <= bpow radix2 126 -> W <= bpow radix2 126 -> W * M <= bpow radix2 126 ->
  8 * (INR (n + m) + 1) * (4 * unit_roundoff 24 * W + 3 * underflow_error 24 128) <= w0 ->
  is_finite x = true -> 0 <= B2R x <= 1 -> is_finite y = true -> 0 <= B2R y <= 1 ->
  exists (s : rbpatch float32 d) (q : vec float32 d),
    @rp_initialize float32 float32_ops d s0 = Ok s /\ @f_rp_evaluate 24 128 prec32 max32 d s x y = Ok q /\ vfinite d q /\
    forall i, (i < d)%nat ->
      Rabs (coord d i (vreal d q) -
        coord d i (tensor_mean (S n) (S m) (bezier_basis (S n) (B2R x)) (bezier_basis (S m) (B2R y))
          (map B2R (rp_weights s0)) (map (vreal d) (rp_grid s0))))
      <= W / w0 * M * ((20 * INR (n + m) + 4) * unit_roundoff 24)
         + (1 + (7 * INR (n + m) * (1 + M) + 5) / w0) * underflow_error 24 128.
Proof. intros d s0 x y w0 W M. exact (@rational_patch_error 24 128 prec32 max32 d s0 x y w0 W M ltac:(lia)). Qed.

(** Degrees 2 (dynamic) and 1 (static), weights from 1/2 to 3. *)
Definition rpatch : rbpatch double 2 :=
  {| rp_tu := -1; rp_tv := 1; rp_degu := 2; rp_degv := 1; rp_grid := bp_grid dpatch;
     rp_weights := map dofQ [1; 1 # 2; 3; 1; 3; 1 # 2]%Q; rp_peru := false; rp_perv := false; rp_hom := bp_new (-1) 1 |}.
Lemma rpatch_case : let s0 := rpatch in let x := dofQ (3 # 10) in let y := dofQ (1 # 10) in
  let n := Z.to_nat (rp_degu s0) in
  let m := Z.to_nat (rp_degv s0) in
  n = 2%nat /\ m = 1%nat /\ (0 <= rp_degu s0)%Z /\ (0 <= rp_degv s0)%Z /\
  bp_tu (rp_hom s0) = rp_tu s0 /\ bp_tv (rp_hom s0) = rp_tv s0 /\
  (rp_tu s0 = -1 \/ rp_tu s0 = rp_degu s0)%Z /\ (rp_tv s0 = -1 \/ rp_tv s0 = rp_degv s0)%Z /\
  rp_peru s0 = false /\ rp_perv s0 = false /\
  length (rp_grid s0) = (S n * S m)%nat /\ length (rp_weights s0) = (S n * S m)%nat /\
  (forall a, In a (rp_grid s0) -> vfinite 2 a /\ forall i, (i < 2)%nat -> Rabs (coord 2 i (vreal 2 a)) <= 4) /\
  (forall w, In w (rp_weights s0) -> is_finite w = true /\ / 2 <= B2R w <= 3) /\
  0 < / 2 /\ 0 <= 4 <= bpow radix2 1022 /\ 3 <= bpow radix2 1022 /\ 3 * 4 <= bpow radix2 1022 /\
  8 * (INR (n + m) + 1) * (4 * unit_roundoff 53 * 3 + 3 * underflow_error 53 1024) <= / 2 /\
  is_finite x = true /\ 0 <= B2R x <= 1 /\ is_finite y = true /\ 0 <= B2R y <= 1.
Proof.
  cbv zeta. destruct dpatch_case as (_ & _ & _ & _ & _ & _ & _ & _ & _ & HP & Fx & Hx & Fy & Hy).
  set (x := dofQ (3 # 10)) in *. clearbody x. set (y := dofQ (1 # 10)) in *. clearbody y.
  pose proof bound12 as HB. pose proof eta_small as [He1 He2]. rewrite u53 in *.
  split; [reflexivity|]. split; [reflexivity|]. split; [cbn; lia|]. split; [cbn; lia|]. split; [reflexivity|]. split; [reflexivity|].
  split; [left; reflexivity|]. split; [right; reflexivity|]. repeat (split; [reflexivity|]).
  split; [exact HP|].
  split; [intros w Hw; apply weights_case; unfold rpatch in Hw; cbn [rp_weights map In] in *; tauto|].
  split; [lra|]. split; [lra|]. split; [lra|]. split; [lra|].
  split; [change (Z.to_nat (rp_degu rpatch) + Z.to_nat (rp_degv rpatch))%nat with 3%nat; simpl INR; lra|].
  split; [exact Fx|]. split; [exact Hx|]. split; [exact Fy|exact Hy].
Qed.
