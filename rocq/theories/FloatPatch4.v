(** NURBS patches in floating point arithmetic. *)
From Coq Require Import Reals Lra Lia ZArith QArith List Bool.
From Flocq Require Import Core IEEE754.BinarySingleNaN.
From Verif Require Import Monad MonadFacts Scalar ScalarFacts Spec SpecFacts SpecPatch SpecPatchRational TensorFacts PatchFacts ModelCurve
  ModelBezier BezierThms ModelBSpline BSplineFacts BSplineThms BSplineThms2 ModelRational ModelPatchBase ModelPatch ModelPatchRational
  PatchHull SpecFloat ModelFloat ModelFloatWrap ModelFloatRational ModelFloatPatch FloatFacts FloatThms FloatThms2 FloatThms3
  FloatCases FloatRuns FloatDeriv FloatTotal FloatSplit FloatPatch FloatPatch2 FloatRational FloatRational2 FloatPatch3.
Import ListNotations.
Local Open Scope R_scope.

(** Initializing does not depend on the cached curves. *)
Lemma sp_initialize_again {T P} {SO : ScalarOps T} {V : PointOps T P} (s s' : spatch T P) :
  sp_initialize s = Ok s' -> sp_initialize s' = Ok s' /\ sp_degu s' = sp_degu s /\ sp_degv s' = sp_degv s /\ sp_grid s' = sp_grid s /\
    sp_ku s' = sp_ku s /\ sp_kv s' = sp_kv s /\ sp_peru s' = sp_peru s /\ sp_perv s' = sp_perv s /\
    zlen (sp_grid s) = ((zlen (sp_ku s) - sp_degu s - 1) * (zlen (sp_kv s) - sp_degv s - 1))%Z.
Proof.
  unfold sp_initialize at 1, checked_degree.
  destruct (Z.leb_spec 0 (sp_degu s)) as [Hu|]; [|discriminate]. destruct (Z.leb_spec 0 (sp_degv s)) as [Hv|]; [|discriminate].
  cbn [assert_ bind]. destruct (_ || _) eqn:Eo; [discriminate|].
  destruct (Z.eqb_spec (zlen (sp_grid s)) ((zlen (sp_ku s) - sp_degu s - 1) * (zlen (sp_kv s) - sp_degv s - 1))) as [Eg|]; [|discriminate].
  cbn [negb]. destruct (sp_iso_curves_u s) as [iu| | |] eqn:Eu; cbn [bind]; try discriminate.
  destruct (sp_iso_curves_v s) as [iv| | |] eqn:Ev; cbn [bind]; try discriminate.
  intros E. injection E as <-. split; [|repeat (split; [reflexivity|]); exact Eg].
  unfold sp_initialize, checked_degree. cbn [sp_degu sp_degv sp_grid sp_ku sp_kv].
  rewrite (proj2 (Z.leb_le _ _) Hu), (proj2 (Z.leb_le _ _) Hv). cbn [assert_ bind]. rewrite Eo, (proj2 (Z.eqb_eq _ _) Eg). cbn [negb].
  match goal with |- bind ?z _ = _ => replace z with (Ok iu) by (symmetry; exact Eu) end. cbn [bind].
  match goal with |- bind ?z _ = _ => replace z with (Ok iv) by (symmetry; exact Ev) end. reflexivity.
Qed.

Section Float.
  Context (prec emax : Z) {Hprec : Prec_gt_0 prec} {Hmax : Prec_lt_emax prec emax}.
  Notation num := (binary_float prec emax).
  Notation u := (unit_roundoff prec).
  Notation eta := (underflow_error prec emax).
  Notation Omega := (bpow radix2 emax).
  Notation spline_err := (spline_err prec emax).
  Local Instance FOt : ScalarOps num := ieee_ops prec emax.

  (** The lemmas of FloatPatch2.v with a bound for each coordinate. *)
  Lemma spline_stage_i d (pts : list (vec num d)) (ks : list num) (p : nat) (t : num) (Mf : nat -> R) :
    let knots := map B2R ks in
    tol_ok prec emax -> valid_dir p knots -> knots_apart (/ IZR (10 ^ 15)) knots ->
    (forall x, In x ks -> is_finite x = true /\ Rabs (B2R x) <= bpow radix2 (emax - 2)) ->
    length pts = dir_count p knots ->
    (forall a i, In a pts -> (i < d)%nat -> is_finite (coord d i a) = true /\ Rabs (B2R (coord d i a)) <= Mf i) ->
    is_finite t = true -> dir_param false p knots (B2R t) -> (forall i, (i < d)%nat -> growth u eta (Mf i) p < Omega) ->
    exists q, bs_evaluate (mk_bspline pts ks) t = Ok q /\
      forall i, (i < d)%nat ->
        near prec emax (growth u eta (Mf i) p) (spline_err (Mf i) p) (coord d i q)
          (coord d i (bspline_curve (map (vreal d) pts) knots (B2R t))).
  Proof.
    intros knots Htol HV HA HK Hl HP Ft [Ht1 Ht2] HO.
    destruct Ht1 as [X|Ht1]; [discriminate|].
    destruct (dir_valid' pts p knots HV Hl) as (VB & D & EL & EU).
    destruct (bspline_near_i prec emax d (mk_bspline pts ks) t Mf Htol VB HA eq_refl HK HP Ft) as (q & Eq & Hq).
    - cbn [bs_pts bs_knots mk_bspline]. fold knots. rewrite EL, EU. exact Ht1.
    - cbn [bs_pts bs_knots mk_bspline]. fold knots. rewrite D, EL. destruct Ht2 as [H|[_ H]]; [now left|now right].
    - cbn [bs_pts bs_knots mk_bspline]. fold knots. rewrite D. exact HO.
    - cbn [bs_pts bs_knots mk_bspline] in *. fold knots in Hq. rewrite D in Hq. exists q. split; [exact Eq|exact Hq].
  Qed.

  Lemma spline_two_stage_i d (rows : list (list (vec num d))) (kx ky : list num) (px py : nat) (x y : num) (Mf : nat -> R) :
    let Kx := map B2R kx in let Ky := map B2R ky in
    tol_ok prec emax -> valid_dir px Kx -> valid_dir py Ky ->
    knots_apart (/ IZR (10 ^ 15)) Kx -> knots_apart (/ IZR (10 ^ 15)) Ky ->
    (forall a, In a kx \/ In a ky -> is_finite a = true /\ Rabs (B2R a) <= bpow radix2 (emax - 2)) ->
    length rows = dir_count px Kx -> (forall r, In r rows -> length r = dir_count py Ky) ->
    (forall r p i, In r rows -> In p r -> (i < d)%nat -> is_finite (coord d i p) = true /\ Rabs (B2R (coord d i p)) <= Mf i) ->
    is_finite x = true -> dir_param false px Kx (B2R x) -> is_finite y = true -> dir_param false py Ky (B2R y) ->
    (forall i, (i < d)%nat -> 0 <= Mf i /\ growth u eta (Mf i) (py + px) < Omega) ->
    exists qs q, length qs = dir_count px Kx /\
      (forall k, (k < dir_count px Kx)%nat -> bs_evaluate (mk_bspline (nth k rows []) ky) y = Ok (nth k qs p0)) /\
      bs_evaluate (mk_bspline qs kx) x = Ok q /\
      forall i, (i < d)%nat -> is_finite (coord d i q) = true /\
        Rabs (B2R (coord d i q) -
          coord d i (bspline_curve (map (fun r => bspline_curve (map (vreal d) r) Ky (B2R y)) rows) Kx (B2R x)))
        <= spline_err (Mf i) py + spline_err (growth u eta (Mf i) py) px.
  Proof.
    intros Kx Ky Htol Vx Vy Ax Ay HK Hn Hm Hb Fx Hx Fy Hy HO.
    assert (HO1 : forall i, (i < d)%nat -> growth u eta (Mf i) py < Omega).
    { intros i Hi. destruct (HO i Hi) as [HM HO']. eapply Rle_lt_trans; [|exact HO']. apply growth_mono; [exact HM|lia]. }
    assert (ST : exists qs, length qs = length rows /\ forall k, (k < length rows)%nat ->
      bs_evaluate (mk_bspline (nth k rows []) ky) y = Ok (nth k qs p0) /\
      forall i, (i < d)%nat -> near prec emax (growth u eta (Mf i) py) (spline_err (Mf i) py) (coord d i (nth k qs p0))
          (coord d i (bspline_curve (map (vreal d) (nth k rows [])) Ky (B2R y)))).
    { clear Hn. induction rows as [|r rows IH]; [exists []; split; [reflexivity|intros k Hk; simpl in Hk; lia]|].
      destruct IH as (qs & Lq & Hq).
      - intros r' Hr. apply Hm. now right.
      - intros r' p i Hr. apply (Hb r' p i). now right.
      - destruct (spline_stage_i d r ky py y Mf Htol Vy Ay (fun a Ha => HK a (or_intror Ha)) (Hm r (or_introl eq_refl))) as (q & Eq & Nq).
        + intros p i Hp Hi. apply (Hb r p i (or_introl eq_refl) Hp Hi).
        + exact Fy.
        + exact Hy.
        + exact HO1.
        + exists (q :: qs). split; [simpl; now rewrite Lq|]. intros [|k] Hk; [split; [exact Eq|exact Nq]|]. apply Hq. simpl in Hk. lia. }
    destruct ST as (qs & Lq & Hq). rewrite Hn in *.
    destruct (spline_stage_i d qs kx px x (fun i => growth u eta (Mf i) py) Htol Vx Ax (fun a Ha => HK a (or_introl Ha)) Lq) as (q & Eq & Nq).
    - intros p i Hp Hi. apply (In_nth _ _ p0) in Hp. destruct Hp as (k & Hk & <-).
      destruct (Hq k ltac:(lia)) as [_ N]. destruct (N i Hi) as (N1 & N2 & _). now split.
    - exact Fx.
    - exact Hx.
    - intros i Hi. destruct (HO i Hi) as [HM HO']. pose proof (growth_plus prec emax (Mf i) py px HM). lra.
    - exists qs, q. split; [exact Lq|]. split; [intros k Hk; apply Hq; lia|]. split; [exact Eq|].
      intros i Hi. destruct (HO i Hi) as [HM HO']. pose proof (growth_plus prec emax (Mf i) py px HM) as GP.
      pose proof (growth_ge prec emax (Mf i) py HM) as GM. destruct (Nq i Hi) as (N1 & _ & N3). split; [exact N1|].
      destruct Hx as [Hx1 Hx2]. destruct Hx1 as [X|Hx1]; [discriminate|].
      pose proof (dir_simplex px Kx (B2R x) Vx Hx1 ltac:(destruct Hx2 as [H|[_ H]]; [now left|now right])) as SX.
      fold Kx in N3.
      assert (Hpx : (px < length Kx)%nat) by (pose proof (vd_len _ _ Vx); lia).
      rewrite (bspline_curve_coord d _ px Kx (B2R x) i Hi) in N3 by (rewrite ?map_length; assumption).
      rewrite (bspline_curve_coord d (map _ rows) px Kx (B2R x) i Hi) by (rewrite ?map_length; assumption).
      set (b := bspline_basis (dir_count px Kx) Kx (B2R x)) in *.
      pose proof (mean_err _ b (fun k => coord d i (nth k (map (vreal d) qs) p0))
        (fun k => coord d i (nth k (map (fun r => bspline_curve (map (@vreal prec emax d) r) Ky (B2R y)) rows) p0)) (spline_err (Mf i) py) SX) as ME.
      assert (HN : forall k, (k < dir_count px Kx)%nat -> Rabs (coord d i (nth k (map (vreal d) qs) p0) -
          coord d i (nth k (map (fun r => bspline_curve (map (@vreal prec emax d) r) Ky (B2R y)) rows) p0)) <= spline_err (Mf i) py).
      { intros k Hk. destruct (Hq k ltac:(lia)) as [_ N]. destruct (N i Hi) as (_ & _ & N4).
        rewrite (nth_indep (map (vreal d) qs) p0 (vreal d p0)) by (rewrite map_length; lia).
        rewrite map_nth.
        rewrite (nth_indep (map _ rows) p0 (bspline_curve (map (@vreal prec emax d) []) Ky (B2R y))) by (rewrite map_length; lia).
        rewrite (map_nth (fun r => bspline_curve (map (@vreal prec emax d) r) Ky (B2R y)) rows []).
        rewrite (vreal_coord prec emax). exact N4. }
      specialize (ME HN). cbv beta in ME.
      set (A := B2R (coord d i q)) in *. set (B := rsum _ (fun k => b k * coord d i (nth k (map (vreal d) qs) p0))) in *.
      set (C := rsum _ _) in ME |- *.
      replace (A - C) with ((A - B) + (B - C)) by ring. eapply Rle_trans; [apply Rabs_triang|]. lra.
  Qed.

  Lemma bspline_patch_error_i d (s : spatch num (vec num d)) (x y : num) (Mf : nat -> R) :
    let p := Z.to_nat (sp_degu s) in let q := Z.to_nat (sp_degv s) in
    let ku := map B2R (sp_ku s) in let kv := map B2R (sp_kv s) in
    let n := dir_count p ku in let m := dir_count q kv in
    tol_ok prec emax -> sp_initialize s = Ok s -> sp_peru s = false -> sp_perv s = false ->
    valid_dir p ku -> valid_dir q kv -> knots_apart (/ IZR (10 ^ 15)) ku -> knots_apart (/ IZR (10 ^ 15)) kv ->
    (forall a, In a (sp_ku s) \/ In a (sp_kv s) -> is_finite a = true /\ Rabs (B2R a) <= bpow radix2 (emax - 2)) ->
    (forall i, (i < d)%nat -> 0 <= Mf i <= bpow radix2 (emax - 1)) -> 24 * INR (p + q) * u <= 1 ->
    (forall a i, In a (sp_grid s) -> (i < d)%nat -> is_finite (coord d i a) = true /\ Rabs (B2R (coord d i a)) <= Mf i) ->
    is_finite x = true -> dir_param false p ku (B2R x) -> is_finite y = true -> dir_param false q kv (B2R y) ->
    exists r, sp_evaluate s x y = Ok r /\ vfinite d r /\
      forall i, (i < d)%nat ->
        Rabs (coord d i (vreal d r) -
          coord d i (tensor_sum n m (bspline_basis n ku (B2R x)) (bspline_basis m kv (B2R y)) (map (vreal d) (sp_grid s))))
        <= INR (p + q) * (16 * u * Mf i + (5 + 3 * Mf i) * eta).
  Proof.
    intros p q ku kv n m Htol HI Hpu Hpv Vu Vv Au Av HK HM Hu Hp Fx Hx Fy Hy.
    assert (Lu : length ku = length (sp_ku s)) by apply map_length. assert (Lv : length kv = length (sp_kv s)) by apply map_length.
    pose proof (vd_len _ _ Vu) as Vlu. pose proof (vd_len _ _ Vv) as Vlv.
    pose proof (gsrep_of_initialize s HI) as H. fold p in H. fold q in H. specialize (H ltac:(lia) ltac:(lia) Hpu Hpv).
    rewrite <- Lu, <- Lv in H. change (gsrep s p q n m) in H.
    assert (Hg : length (sp_grid s) = (n * m)%nat) by (pose proof (gs_g _ _ _ _ _ H) as X; unfold zlen in X; nia).
    assert (Hb : forall k i, (k < length (sp_grid s))%nat -> (i < d)%nat ->
      is_finite (coord d i (nth k (sp_grid s) p0)) = true /\ Rabs (B2R (coord d i (nth k (sp_grid s) p0))) <= Mf i).
    { intros k i Hk Hi. exact (Hp (nth k (sp_grid s) p0) i (nth_In _ _ Hk) Hi). }
    assert (HO : forall i, (i < d)%nat -> 0 <= Mf i /\ growth u eta (Mf i) (p + q) < Omega).
    { intros i Hi. pose proof (HM i Hi). split; [lra|]. apply (growth_finite prec emax (Mf i) (p + q)); lra. }
    destruct (Z.lt_ge_cases (sp_degu s) (sp_degv s)) as [Hd|Hd].
    - destruct (spline_two_stage_i d (map (scol s n m) (seq 0 m)) (sp_kv s) (sp_ku s) q p y x Mf) as (qs & r & Lq & Eqs & Eq & Hq);
        try assumption; try lra.
      + intros a Ha. apply HK. tauto.
      + rewrite map_length, seq_length. reflexivity.
      + intros r Hr. apply in_map_iff in Hr. destruct Hr as (j & <- & _). unfold scol. rewrite map_length, seq_length. reflexivity.
      + intros r a i Hr Hpr Hi. apply in_map_iff in Hr. destruct Hr as (j & <- & Hj). unfold scol in Hpr.
        apply in_map_iff in Hpr. destruct Hpr as (k & <- & Hk). apply in_seq in Hj, Hk. apply Hb; [rewrite Hg; nia|exact Hi].
      + fold kv in Lq, Eqs. fold m in Lq, Eqs. exists r. split.
        { rewrite (gs_evaluate_cols s p q n m H HI x y qs Lq); [exact Eq| |exact Hd]. intros j Hj.
          rewrite <- Eqs by exact Hj. f_equal. f_equal.
          rewrite (nth_indep _ [] (scol s n m 0%nat)) by (rewrite map_length, seq_length; lia). now rewrite map_nth, seq_nth by lia. }
        split; [apply (vfinite_coord prec emax d); intros i Hi; apply (Hq i Hi)|].
        intros i Hi. destruct (Hq i Hi) as [_ E]. rewrite (vreal_coord prec emax).
        pose proof (spline_cols prec emax d (sp_grid s) p q ku kv (B2R x) (B2R y) Vu Vv Hg) as X. cbv zeta in X. fold n in X. fold m in X.
        rewrite <- X. eapply Rle_trans; [exact E|].
        rewrite Nat.add_comm. apply (two_stage_bound prec emax); [apply HM; exact Hi|]. rewrite Nat.add_comm. exact Hu.
    - destruct (spline_two_stage_i d (map (srow s m) (seq 0 n)) (sp_ku s) (sp_kv s) p q x y Mf) as (qs & r & Lq & Eqs & Eq & Hq);
        try assumption; try lra.
      + rewrite map_length, seq_length. reflexivity.
      + intros r Hr. apply in_map_iff in Hr. destruct Hr as (j & <- & _). unfold srow. rewrite map_length, seq_length. reflexivity.
      + intros r a i Hr Hpr Hi. apply in_map_iff in Hr. destruct Hr as (j & <- & Hj). unfold srow in Hpr.
        apply in_map_iff in Hpr. destruct Hpr as (k & <- & Hk). apply in_seq in Hj, Hk. apply Hb; [rewrite Hg; nia|exact Hi].
      + intros i Hi. rewrite Nat.add_comm. exact (HO i Hi).
      + fold ku in Lq, Eqs. fold n in Lq, Eqs. exists r. split.
        { rewrite (gs_evaluate_rows s p q n m H HI x y qs Lq); [exact Eq| |exact Hd]. intros j Hj.
          rewrite <- Eqs by exact Hj. f_equal. f_equal.
          rewrite (nth_indep _ [] (srow s m 0%nat)) by (rewrite map_length, seq_length; lia). now rewrite map_nth, seq_nth by lia. }
        split; [apply (vfinite_coord prec emax d); intros i Hi; apply (Hq i Hi)|].
        intros i Hi. destruct (Hq i Hi) as [_ E]. rewrite (vreal_coord prec emax).
        pose proof (spline_rows prec emax d (sp_grid s) p q ku kv (B2R x) (B2R y) Vu Vv Hg) as X. cbv zeta in X. fold n in X. fold m in X.
        rewrite <- X. eapply Rle_trans; [exact E|].
        apply (two_stage_bound prec emax); [apply HM; exact Hi|exact Hu].
  Qed.

  Lemma nurbs_patch_error d (s0 s : nupatch num d) (x y : num) w0 W M :
    let p := Z.to_nat (np_degu s0) in let q := Z.to_nat (np_degv s0) in
    let ku := map B2R (np_ku s0) in let kv := map B2R (np_kv s0) in
    let n := dir_count p ku in let m := dir_count q kv in
    tol_ok prec emax -> (4 <= prec)%Z -> np_initialize s0 = Ok s -> np_peru s0 = false -> np_perv s0 = false ->
    valid_dir p ku -> valid_dir q kv -> knots_apart (/ IZR (10 ^ 15)) ku -> knots_apart (/ IZR (10 ^ 15)) kv ->
    (forall a, In a (np_ku s0) \/ In a (np_kv s0) -> is_finite a = true /\ Rabs (B2R a) <= bpow radix2 (emax - 2)) ->
    (forall a, In a (np_grid s0) -> vfinite d a /\ forall i, (i < d)%nat -> Rabs (coord d i (vreal d a)) <= M) ->
    (forall w, In w (np_weights s0) -> is_finite w = true /\ w0 <= B2R w <= W) ->
    0 < w0 -> 0 <= M <= bpow radix2 (emax - 2) -> W <= bpow radix2 (emax - 2) -> W * M <= bpow radix2 (emax - 2) ->
    8 * (2 * INR (p + q) + 1) * ((8 * u + 2 * eta) * W + 3 * eta) <= w0 ->
    is_finite x = true -> dir_param false p ku (B2R x) -> is_finite y = true -> dir_param false q kv (B2R y) ->
    exists r, f_np_evaluate prec emax s x y = Ok r /\ vfinite d r /\
      forall i, (i < d)%nat ->
        Rabs (coord d i (vreal d r) -
          coord d i (tensor_mean n m (bspline_basis n ku (B2R x)) (bspline_basis m kv (B2R y))
            (map B2R (np_weights s0)) (map (vreal d) (np_grid s0))))
        <= W / w0 * M * ((80 * INR (p + q) + 4) * u + 20 * INR (p + q) * eta)
           + (1 + (14 * INR (p + q) * (1 + M) + 5) / w0) * eta.
  Proof.
    intros p q ku kv n m Htol Hpr HI Hpu Hpv Vu Vv Au Av HK HS HW Hw0 HM HWb HWM Hsm Fx Hx Fy Hy.
    set (pts := np_grid s0) in *. set (ws := np_weights s0) in *.
    pose proof (u_pos prec) as Hu. pose proof (eta_pos prec emax) as Het. pose proof (pos_INR (p + q)) as Hi0.
    pose proof (vd_len _ _ Vu) as Vlu. pose proof (vd_len _ _ Vv) as Vlv.
    assert (Lu : length ku = length (np_ku s0)) by apply map_length. assert (Lv : length kv = length (np_kv s0)) by apply map_length.
    unfold np_initialize in HI. fold pts ws in HI. destruct (Z.eqb_spec (zlen ws) (zlen pts)) as [El|]; [|discriminate].
    cbn [negb] in HI. unfold homogenize in HI. rewrite <- El, Z.eqb_refl, bind_Ok in HI. unfold checked_degree in HI.
    destruct (Z.leb_spec 0 (np_degu s0)) as [Hdu|]; [|discriminate]. destruct (Z.leb_spec 0 (np_degv s0)) as [Hdv|]; [|discriminate].
    cbn [assert_] in HI. rewrite !bind_Ok in HI.
    change (map _ (combine pts ws)) with (frows prec emax pts ws) in HI.
    destruct (sp_initialize _) as [h| | |] eqn:Eh in HI; try discriminate HI. rewrite bind_Ok in HI. injection HI as <-.
    destruct (sp_initialize_again _ _ Eh) as (Hh & H1 & H2 & H3 & H4 & H5 & H6 & H7 & H8).
    unfold sp_with in H1, H2, H3, H4, H5, H6, H7, H8. cbn [sp_degu sp_degv sp_grid sp_ku sp_kv sp_peru sp_perv] in H1, H2, H3, H4, H5, H6, H7, H8.
    clear Eh.
    assert (Hnw : length ws = length pts) by (unfold zlen in El; lia).
    assert (Hn : length pts = (n * m)%nat).
    { unfold zlen in H8. rewrite frows_length in H8 by exact Hnw. unfold n, m, dir_count, p, q in *. rewrite Lu, Lv in *. nia. }
    assert (Hn0 : (0 < n)%nat) by (unfold n, dir_count; lia). assert (Hm0 : (0 < m)%nat) by (unfold m, dir_count; lia).
    assert (HwW : w0 <= W).
    { destruct ws as [|w ws']; [cbn [length] in Hnw; nia|]. destruct (HW w (or_introl eq_refl)). lra. }
    set (N := (2 * (p + q))%nat). assert (EN : INR N = 2 * INR (p + q)) by (unfold N; rewrite mult_INR; simpl; ring).
    set (a := 8 * u + 2 * eta) in *. rewrite <- EN in Hsm.
    destruct (rational_sizes prec emax N a W M w0 Hpr Hw0 HwW ltac:(lra) ltac:(lra) ltac:(unfold a; lra) Hsm) as (He & Hf & H2f & HO & HB).
    set (H := (1 + u) * (W * M) + eta) in *.
    assert (HWM0 : 0 <= W * M) by (apply Rmult_le_pos; lra).
    assert (HH0 : 0 <= H) by (unfold H; assert (0 <= u * (W * M)) by (apply Rmult_le_pos; lra); lra).
    assert (Hu16 : u <= / 16).
    { unfold unit_roundoff. change (/ 16) with (bpow radix2 (-4)). apply bpow_le. lia. }
    assert (Hb1 : bpow radix2 (emax - 1) = 2 * bpow radix2 (emax - 2)).
    { change 2 with (bpow radix2 1). rewrite <- bpow_plus. f_equal. lia. }
    assert (Heb : eta <= / 2 * bpow radix2 (emax - 2)).
    { unfold underflow_error. change (/ 2) with (bpow radix2 (-1)). rewrite <- bpow_plus. apply bpow_le. unfold Prec_gt_0, Prec_lt_emax in *. lia. }
    assert (HHb : H <= bpow radix2 (emax - 1)).
    { unfold H. rewrite Hb1. assert (u * (W * M) <= / 16 * bpow radix2 (emax - 2)) by (apply Rmult_le_compat; lra). lra. }
    assert (Hn24 : 24 * INR (p + q) * u <= 1).
    { rewrite EN in Hsm. set (k := INR (p + q)) in *.
      assert (A1 : 8 * u * W <= a * W + 3 * eta).
      { unfold a. assert (0 <= eta * W) by (apply Rmult_le_pos; lra). lra. }
      assert (A2 : 8 * (2 * k + 1) * (8 * u * W) <= w0) by (eapply Rle_trans; [apply Rmult_le_compat_l; [lra|exact A1]|exact Hsm]).
      assert (0 <= u * W) by (apply Rmult_le_pos; lra).
      assert (A : 24 * k * u * W <= 1 * W) by (assert (0 <= k * (u * W)) by (apply Rmult_le_pos; lra); lra).
      apply Rmult_le_reg_r in A; lra. }
    assert (Hlr : length (frows prec emax pts ws) = (n * m)%nat) by (rewrite frows_length; lia).
    pose proof (bspline_patch_error_i (S d) h x y (row_bound d H W)) as BP. cbv zeta in BP.
    rewrite H1, H2, H3, H4, H5, H6, H7 in BP. fold p q ku kv n m in BP.
    destruct (BP Htol Hh Hpu Hpv Vu Vv Au Av HK) as (r & Er & Fr & Hr).
    { intros i Hi. unfold row_bound. destruct (i <? d)%nat; lra. }
    { exact Hn24. }
    { exact (rows_bounded prec emax d pts ws w0 W M Hnw HS HW Hw0 ltac:(lra) HWM). }
    { exact Fx. } { exact Hx. } { exact Fy. } { exact Hy. }
    clear BP.
    set (b := flat_basis m (bspline_basis n ku (B2R x)) (bspline_basis m kv (B2R y))) in *.
    assert (Hnear : forall i, (i < S d)%nat ->
      Rabs (B2R (coord (S d) i r) - rsum (n * m) (fun j => b j * B2R (coord (S d) i (nth j (frows prec emax pts ws) p0))))
      <= INR N * (a * row_bound d H W i + 3 * eta)).
    { intros i Hi. pose proof (Hr i Hi) as E. rewrite (vreal_coord prec emax) in E. rewrite flat_tensor_sum in E. fold b in E.
      rewrite (coord_curve prec emax (S d) b (frows prec emax pts ws) (n * m) i Hlr Hi) in E. eapply Rle_trans; [exact E|].
      assert (Hrb : 0 <= row_bound d H W i) by (unfold row_bound; destruct (i <? d)%nat; lra).
      set (z := row_bound d H W i) in *. rewrite EN. replace (2 * INR (p + q) * (a * z + 3 * eta)) with (INR (p + q) * (2 * (a * z + 3 * eta))) by ring. apply Rmult_le_compat_l; [exact Hi0|].
      unfold a. assert (0 <= eta * z) by (apply Rmult_le_pos; lra). lra. }
    assert (SU : simplex n (bspline_basis n ku (B2R x))).
    { destruct Hx as [[X|Hx1] Hx2]; [discriminate|]. apply dir_simplex; [exact Vu|exact Hx1|]. destruct Hx2 as [X|[_ X]]; [now left|now right]. }
    assert (SV : simplex m (bspline_basis m kv (B2R y))).
    { destruct Hy as [[X|Hy1] Hy2]; [discriminate|]. apply dir_simplex; [exact Vv|exact Hy1|]. destruct Hy2 as [X|[_ X]]; [now left|now right]. }
    destruct (h_point_error prec emax d r (n * m) b pts ws w0 W M (INR N * (a * H + 3 * eta)) (INR N * (a * W + 3 * eta))
      (flat_simplex n m _ _ Hm0 SU SV) Hn ltac:(lia) HS HW Hw0 ltac:(lra) HWM) as [F E].
    { exact Fr. } { exact He. } { exact Hf. }
    { intros i Hi. pose proof (Hnear i ltac:(lia)) as E. unfold row_bound in E.
      rewrite (proj2 (Nat.ltb_lt i d) Hi) in E. exact E. }
    { pose proof (Hnear d ltac:(lia)) as E. unfold row_bound in E. rewrite Nat.ltb_irrefl in E. exact E. }
    { exact H2f. } { exact HO. }
    exists (f_h_point prec emax r). split.
    { unfold f_np_evaluate, np_validate. cbn [np_hom np_grid np_weights np_peru np_perv np_degu np_degv].
      fold pts ws. rewrite H3, H6, H7. unfold zlen. rewrite Hlr, Hn, Hnw, Hn, Z.eqb_refl. cbn [negb orb]. unfold checked_degree.
      rewrite (proj2 (Z.leb_le _ _) Hdu), (proj2 (Z.leb_le _ _) Hdv). cbn [assert_ bind].
      rewrite (proj2 (Z.ltb_ge _ _) Hdu), (proj2 (Z.ltb_ge _ _) Hdv). cbn [orb]. rewrite !Bool.eqb_reflx. cbn [negb]. rewrite bind_Ok.
      match goal with |- bind ?z _ = _ => replace z with (Ok r) by (symmetry; exact Er) end. reflexivity. }
    split; [exact F|]. intros i Hi. rewrite <- flat_mean. fold b. eapply Rle_trans; [exact (E i Hi)|].
    eapply Rle_trans; [exact HB|]. rewrite EN. unfold a. right. unfold Rdiv. ring.
  Qed.
End Float.

Lemma nurbs_patch_double : forall (d : nat) (s0 s : nupatch double d) (x y : double) (w0 W M : R),
  let p := Z.to_nat (np_degu s0) in let q := Z.to_nat (np_degv s0) in
  let ku := map B2R (np_ku s0) in let kv := map B2R (np_kv s0) in
  let n := dir_count p ku in let m := dir_count q kv in
  @np_initialize double double_ops d s0 = Ok s -> np_peru s0 = false -> np_perv s0 = false ->
  valid_dir p ku -> valid_dir q kv -> knots_apart (/ IZR (10 ^ 15)) ku -> knots_apart (/ IZR (10 ^ 15)) kv ->
  (forall a, In a (np_ku s0) \/ In a (np_kv s0) -> is_finite a = true /\ Rabs (B2R a) <= bpow radix2 1022) ->
  (forall a, In a (np_grid s0) -> vfinite d a /\ forall i, (i < d)%nat -> Rabs (coord d i (vreal d a)) <= M) ->
  (forall w, In w (np_weights s0) -> is_finite w = true /\ w0 <= B2R w <= W) ->
  0 < w0 -> 0 <= M <= bpow radix2 1022 -> W <= bpow radix2 1022 -> W * M <= bpow radix2 1022 ->
  8 * (2 * INR (p + q) + 1) * ((8 * unit_roundoff 53 + 2 * underflow_error 53 1024) * W + 3 * underflow_error 53 1024) <= w0 ->
  is_finite x = true -> dir_param false p ku (B2R x) -> is_finite y = true -> dir_param false q kv (B2R y) ->
  exists r : vec double d, @f_np_evaluate 53 1024 prec64 max64 d s x y = Ok r /\ vfinite d r /\
    forall i, (i < d)%nat ->
      Rabs (coord d i (vreal d r) -
        coord d i (tensor_mean n m (bspline_basis n ku (B2R x)) (bspline_basis m kv (B2R y))
          (map B2R (np_weights s0)) (map (vreal d) (np_grid s0))))
      <= W / w0 * M * ((80 * INR (p + q) + 4) * unit_roundoff 53 + 20 * INR (p + q) * underflow_error 53 1024)
         + (1 + (14 * INR (p + q) * (1 + M) + 5) / w0) * underflow_error 53 1024.
Proof. intros d s0 s x y w0 W M p q ku kv n m. exact (@nurbs_patch_error 53 1024 prec64 max64 d s0 s x y w0 W M tol_double ltac:(lia)). Qed.

Lemma nurbs_patch_float : forall (d : nat) (s0 s : nupatch float32 d) (x y : float32) (w0 W M : R),
  let p := Z.to_nat (np_degu s0) in let q := Z.to_nat (np_degv s0) in
  let ku := map B2R (np_ku s0) in let kv := map B2R (np_kv s0) in
  let n := dir_count p ku in let m := dir_count q kv in
  @np_initialize float32 float32_ops d s0 = Ok s -> np_peru s0 = false -> np_perv s0 = false ->
  valid_dir p ku -> valid_dir q kv -> knots_apart (/ IZR (10 ^ 15)) ku -> knots_apart (/ IZR (10 ^ 15)) kv ->
  (forall a, In a (np_ku s0) \/ In a (np_kv s0) -> is_finite a = true /\ Rabs (B2R a) <= bpow radix2 126) ->
  (forall a, In a (np_grid s0) -> vfinite d a /\ forall i, (i < d)%nat -> Rabs (coord d i (vreal d a)) <= M) ->
  (forall w, In w (np_weights s0) -> is_finite w = true /\ w0 <= B2R w <= W) ->
  0 < w0 -> 0 <= M <= bpow radix2 126 -> W <= bpow radix2 126 -> W * M <= bpow radix2 126 ->
  8 * (2 * INR (p + q) + 1) * ((8 * unit_roundoff 24 + 2 * underflow_error 24 128) * W + 3 * underflow_error 24 128) <= w0 ->
  is_finite x = true -> dir_param false p ku (B2R x) -> is_finite y = true -> dir_param false q kv (B2R y) ->
  exists r : vec float32 d, @f_np_evaluate 24 128 prec32 max32 d s x y = Ok r /\ vfinite d r /\
    forall i, (i < d)%nat ->
      Rabs (coord d i (vreal d r) -
        coord d i (tensor_mean n m (bspline_basis n ku (B2R x)) (bspline_basis m kv (B2R y))
          (map B2R (np_weights s0)) (map (vreal d) (np_grid s0))))
      <= W / w0 * M * ((80 * INR (p + q) + 4) * unit_roundoff 24 + 20 * INR (p + q) * underflow_error 24 128)
         + (1 + (14 * INR (p + q) * (1 + M) + 5) / w0) * underflow_error 24 128.
Proof. intros d s0 s x y w0 W M p q ku kv n m. exact (@nurbs_patch_error 24 128 prec32 max32 d s0 s x y w0 W M tol_float ltac:(lia)). Qed.

(** The patch of [dspatch_case] with weights from 1/2 to 3, before initialize. *)
Definition nupatch_raw : nupatch double 2 :=
  np_make 2 1 2 1 dspatch_grid (map dofQ [1; 1 # 2; 3; 1; 3; 1 # 2; 1; 3]%Q) (sp_ku dspatch) (sp_kv dspatch) false false.
Lemma nupatch_case : let s0 := nupatch_raw in let x := dofQ (3 # 10) in let y := dofQ (1 # 10) in
  let p := Z.to_nat (np_degu s0) in let q := Z.to_nat (np_degv s0) in
  let ku := map B2R (np_ku s0) in let kv := map B2R (np_kv s0) in
  p = 2%nat /\ q = 1%nat /\ (exists s : nupatch double 2, @np_initialize double double_ops 2 s0 = Ok s) /\ np_peru s0 = false /\ np_perv s0 = false /\
  valid_dir p ku /\ valid_dir q kv /\ knots_apart (/ IZR (10 ^ 15)) ku /\ knots_apart (/ IZR (10 ^ 15)) kv /\
  (forall a, In a (np_ku s0) \/ In a (np_kv s0) -> is_finite a = true /\ Rabs (B2R a) <= bpow radix2 1022) /\
  (forall a, In a (np_grid s0) -> vfinite 2 a /\ forall i, (i < 2)%nat -> Rabs (coord 2 i (vreal 2 a)) <= 4) /\
  (forall w, In w (np_weights s0) -> is_finite w = true /\ / 2 <= B2R w <= 3) /\
  0 < / 2 /\ 0 <= 4 <= bpow radix2 1022 /\ 3 <= bpow radix2 1022 /\ 3 * 4 <= bpow radix2 1022 /\
  8 * (2 * INR (p + q) + 1) * ((8 * unit_roundoff 53 + 2 * underflow_error 53 1024) * 3 + 3 * underflow_error 53 1024) <= / 2 /\
  is_finite x = true /\ dir_param false p ku (B2R x) /\ is_finite y = true /\ dir_param false q kv (B2R y).
Proof.
  assert (HI : exists s : nupatch double 2, @np_initialize double double_ops 2 nupatch_raw = Ok s).
  { assert (X : match @np_initialize double double_ops 2 nupatch_raw with Ok _ => true | _ => false end = true) by (vm_compute; reflexivity).
    destruct (@np_initialize double double_ops 2 nupatch_raw) as [s| | |]; try discriminate X. now exists s. }
  pose proof dspatch_case as DC. cbv zeta in DC |- *.
  destruct DC as (E1 & E2 & _ & _ & _ & Vu & Vv & Au & Av & HK & _ & _ & HP & Fx & Hx & Fy & Hy).
  set (x := dofQ (3 # 10)) in *. clearbody x. set (y := dofQ (1 # 10)) in *. clearbody y.
  pose proof bound12 as HB. pose proof eta_small as [He1 He2]. rewrite u53 in *.
  split; [exact E1|]. split; [exact E2|]. split; [exact HI|]. split; [reflexivity|]. split; [reflexivity|].
  split; [exact Vu|]. split; [exact Vv|]. split; [exact Au|]. split; [exact Av|]. split; [exact HK|]. split; [exact HP|].
  split; [intros w Hw; apply weights_case; unfold nupatch_raw, np_make in Hw; cbn [np_weights map In] in *; tauto|].
  split; [lra|]. split; [lra|]. split; [lra|]. split; [lra|].
  split; [change (Z.to_nat (np_degu nupatch_raw) + Z.to_nat (np_degv nupatch_raw))%nat with 3%nat; simpl INR; lra|].
  split; [exact Fx|]. split; [exact Hx|]. split; [exact Fy|exact Hy].
Qed.
